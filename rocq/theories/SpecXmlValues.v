(** SpecXmlValues.v - specification side: values and text that the XML format
    keeps. *)
From Verif Require Import Base RbxlValues RbxValues Tree SpecValues XmlText XmlDoc XmlCodec SpecXml XmlFloats.

(** Carriage returns are only among the white space at the start. *)
Fixpoint cr_leading (s : bytes) : Prop :=
  match s with
  | [] => True
  | c :: r => if isSpace c then cr_leading r else ~ In x0d (c :: r)
  end.
(** A float that is a number or infinite, or the not-a-number that text gives. *)
Definition number32 (f : N) : Prop := (f mod 2 ^ 31 <= 0x7F800000)%N \/ f = nan32.
Definition vec3_all (P : N -> Prop) (v : vec3) : Prop := P (v3x v) /\ P (v3y v) /\ P (v3z v).
(** The types with a tag name for optionals of them. *)
Definition type_named (t : Type_) : Prop := exists n, In (t, n) canon_tags.
(** Which values are kept, by type.  Six digits of the floats in sequences and
    nine of doubles are kept: [six] and [nine] say which floats have no more. *)
Definition kept (six nine : N -> Prop) (v : rvalue) : Prop :=
  match v with
  | RString s | RProtectedString s | RContent s => cr_leading s
  | RBrickColor _ => False
  | RToken n => (n < 2 ^ 31)%N
  | RFloat x => number32 x
  | RDouble x => nine x
  | RCFrame p rot => vec3_all number32 p /\ Forall number32 rot
  | RColor3 r g b => number32 r /\ number32 g /\ number32 b
  | RRay o d => vec3_all number32 o /\ d = o
  | RUDim s _ => number32 s
  | RUDim2 xs _ ys _ => number32 xs /\ number32 ys
  | RVector2 x y => number32 x /\ number32 y
  | RVector3 v => vec3_all number32 v
  | RNumberSequence ks => Forall (fun k => six (ns_time k) /\ six (ns_value k) /\ six (ns_env k)) ks
  | RColorSequence ks => Forall (fun k => six (cs_time k) /\ six (cs_r k) /\ six (cs_g k) /\ six (cs_b k) /\ six (cs_env k)) ks
  | RNumberRange a b => six a /\ six b
  | RRect a b c d => number32 a /\ number32 b /\ number32 c /\ number32 d
  | RPhysicalProperties true a b c d e => number32 a /\ number32 b /\ number32 c /\ number32 d /\ number32 e
  | RPhysicalProperties false a b c d e => (a = 0 /\ b = 0 /\ c = 0 /\ d = 0 /\ e = 0)%N
  | ROptional _ (Some (RCFrame p rot)) => vec3_all number32 p /\ Forall number32 rot
  | ROptional t (Some _) => False
  | ROptional t None => type_named t \/ t = TypeInvalid
  | RFont family w style cached => cr_leading family /\ cr_leading cached /\
      ((w < 2 ^ 15)%N /\ (style = x00 \/ style = x01) \/ w = (2 ^ 15 - 1)%N /\ style = x00)
  | _ => True
  end.
