(** SpecStrings.v - specification side for the texts of values (the String
    methods). *)
From Verif Require Import Base RbxlValues RbxValues SpecValues SpecRoot XmlText XmlFloats SpecDump.
Local Notation string := String.string.

(** ** Texts of numbers *)
(** An optional minus, digits, and possibly a point and more digits. *)
Definition digits (s : bytes) : Prop := s <> [] /\ Forall (fun c => In c (str "0123456789")) s.
Inductive decimal : bytes -> Prop :=
| dec_whole neg ip : digits ip -> decimal ((if neg : bool then str "-" else []) ++ ip)
| dec_point neg ip fp : digits ip -> digits fp -> decimal ((if neg : bool then str "-" else []) ++ ip ++ str "." ++ fp).
(** What strconv promises about FormatFloat(f, 'f', -1, bits): decimal text
    without an exponent that reads back as the same number. *)
Record prints (F : fformat) (txt : N -> bytes) : Prop := Prints {
  pr_nan : forall f, (inf_bits F < Z.of_N f mod sign_bit F)%Z -> txt f = str "NaN";
  pr_inf : forall f, (Z.of_N f mod sign_bit F = inf_bits F)%Z -> txt f = if (sign_bit F <=? Z.of_N f)%Z then str "-Inf" else str "+Inf";
  pr_dec : forall f, (Z.of_N f mod sign_bit F < inf_bits F)%Z -> (Z.of_N f < 2 * sign_bit F)%Z ->
    decimal (txt f) /\ exists v, dec_parse (txt f) = Some v /\ round_to F v = Some f }.

(** ** Values *)
(** Numbers in the ranges of the Go types; nine numbers in a rotation. *)
Fixpoint go_value (v : rvalue) : Prop :=
  match v with
  | RString _ | RBinaryString _ | RProtectedString _ | RContent _ | RSharedString _ | RBool _ | RFaces _ _ _ _ _ _ | RAxes _ _ _
  | RColor3uint8 _ _ _ | RReference _ => True
  | RInt n => int_range 32 n
  | RFloat f => f32 f
  | RDouble f => f64 f
  | RUDim s o => f32 s /\ int_range 32 o
  | RUDim2 xs xo ys yo => f32 xs /\ int_range 32 xo /\ f32 ys /\ int_range 32 yo
  | RRay o d => wf_vec3 o /\ wf_vec3 d
  | RBrickColor n | RToken n => f32 n
  | RColor3 r g b => f32 r /\ f32 g /\ f32 b
  | RVector2 x y | RNumberRange x y => f32 x /\ f32 y
  | RVector3 v => wf_vec3 v
  | RCFrame p rot => wf_vec3 p /\ length rot = 9 /\ Forall f32 rot
  | RVector3int16 x y z => int_range 16 x /\ int_range 16 y /\ int_range 16 z
  | RVector2int16 x y => int_range 16 x /\ int_range 16 y
  | RNumberSequence ks => Forall (fun k => f32 (ns_time k) /\ f32 (ns_value k) /\ f32 (ns_env k)) ks
  | RColorSequence ks => Forall (fun k => f32 (cs_time k) /\ f32 (cs_r k) /\ f32 (cs_g k) /\ f32 (cs_b k) /\ f32 (cs_env k)) ks
  | RRect a b c d => f32 a /\ f32 b /\ f32 c /\ f32 d
  | RPhysicalProperties _ d f e fw ew => f32 d /\ f32 f /\ f32 e /\ f32 fw /\ f32 ew
  | RInt64 n => int_range 64 n
  | ROptional _ (Some v) => go_value v
  | ROptional _ None => True
  | RUniqueId r t i => int_range 64 r /\ f32 t /\ f32 i
  | RFont _ w _ _ => (w < 2 ^ 16)%N
  end.

(** ** Layout: a template with % for each component *)
Inductive component := CFloat (f : N) | CDouble (f : N) | CInt (z : Z) | CText (s : bytes).
Fixpoint fill (template : bytes) (texts : list bytes) : bytes :=
  match template with
  | [] => []
  | x25 :: t => match texts with [] => [] | s :: texts => s ++ fill t texts end
  | c :: t => c :: fill t texts
  end.
(** n components with commas between them *)
Definition commas (n : nat) : string := String.concat ", " (repeat "%"%string n).
Definition times (n : nat) (s : string) : string := String.concat "" (repeat s n).
Definition names_set (l : list (bool * string)) : list component := map (fun bn => CText (str (snd bn))) (filter fst l).
Fixpoint layout (v : rvalue) : string * list component :=
  match v with
  | RString s | RBinaryString s | RProtectedString s | RContent s | RSharedString s => ("%", [CText s])
  | RBool true => ("true", [])
  | RBool false => ("false", [])
  | RInt n | RInt64 n => ("%", [CInt n])
  | RFloat f => ("%", [CFloat f])
  | RDouble f => ("%", [CDouble f])
  | RUDim s o => ("%, %", [CFloat s; CInt o])
  | RUDim2 xs xo ys yo => ("{%, %}, {%, %}", [CFloat xs; CInt xo; CFloat ys; CInt yo])
  | RRay (Vec3 a b c) (Vec3 d e f) => ("{%, %, %}, {%, %, %}", map CFloat [a; b; c; d; e; f])
  | RFaces rgt top back lft bottom front =>
      let l := names_set [(front, "Front"); (bottom, "Bottom"); (lft, "Left"); (back, "Back"); (top, "Top"); (rgt, "Right")] in
      (commas (length l), l)
  | RAxes x y z => let l := names_set [(x, "X"); (y, "Y"); (z, "Z")] in (commas (length l), l)
  | RBrickColor n | RToken n => ("%", [CInt (Z.of_N n)])
  | RColor3 r g b => ("%, %, %", map CFloat [r; g; b])
  | RVector2 x y => ("%, %", map CFloat [x; y])
  | RVector3 (Vec3 x y z) => ("%, %, %", map CFloat [x; y; z])
  | RCFrame (Vec3 x y z) rot => (commas 12, map CFloat ([x; y; z] ++ rot))
  | RReference _ => ("", [])                                        (* see C89 *)
  | RVector3int16 x y z => ("%, %, %", map CInt [x; y; z])
  | RVector2int16 x y => ("%, %", map CInt [x; y])
  | RNumberSequence ks => (times (length ks) "% % % ", flat_map (fun k => map CFloat [ns_time k; ns_value k; ns_env k]) ks)
  | RColorSequence ks => (times (length ks) "% % % % % ", flat_map (fun k => map CFloat [cs_time k; cs_r k; cs_g k; cs_b k; cs_env k]) ks)
  | RNumberRange a b => ("% %", map CFloat [a; b])
  | RRect a b c d => ("%, %, %, %", map CFloat [a; b; c; d])
  | RPhysicalProperties true d f e fw ew => ("%, %, %, %, %", map CFloat [d; f; e; fw; ew])
  | RPhysicalProperties false _ _ _ _ _ => ("nil", [])
  | RColor3uint8 r g b => ("%, %, %", map (fun c => CInt (Z.of_N (b2N c))) [r; g; b])
  | ROptional _ None => ("nil", [])
  | ROptional _ (Some v) => layout v
  | RUniqueId r t i => ("%%%", [CText (flat_map (hex "0123456789abcdef") (be_bytes 8 (toN 64 r))); CText (flat_map (hex "0123456789abcdef") (be_bytes 4 t)); CText (flat_map (hex "0123456789abcdef") (be_bytes 4 i))])
  | RFont family w s _ => ("Font { Family = %, Weight = %, Style = % }", [CText family; CText (str (fontweight_string w)); CText (str (fontstyle_string (b2N s)))])
  end%string.

(** ** What the text of a value says *)
Definition seen_weight (w : N) : N := if existsb (N.eqb w) [100; 200; 300; 400; 500; 600; 700; 800; 900]%N then w else 0%N.
Definition seen_style (s : byte) : byte := if (b2N s <? 2)%N then s else xff.
Fixpoint seen (v : rvalue) : rvalue :=
  let p := plain32 in
  match v with
  | RFloat f => RFloat (p f)
  | RDouble f => RDouble (plain64 f)
  | RUDim s o => RUDim (p s) o
  | RUDim2 xs xo ys yo => RUDim2 (p xs) xo (p ys) yo
  | RRay o d => RRay (plain_vec3 o) (plain_vec3 d)
  | RColor3 r g b => RColor3 (p r) (p g) (p b)
  | RVector2 x y => RVector2 (p x) (p y)
  | RVector3 v => RVector3 (plain_vec3 v)
  | RCFrame q rot => RCFrame (plain_vec3 q) (map p rot)
  | RNumberSequence ks => RNumberSequence (map (fun k => NSK (p (ns_time k)) (p (ns_value k)) (p (ns_env k))) ks)
  | RColorSequence ks => RColorSequence (map (fun k => CSK (p (cs_time k)) (p (cs_r k)) (p (cs_g k)) (p (cs_b k)) (p (cs_env k))) ks)
  | RNumberRange a b => RNumberRange (p a) (p b)
  | RRect a b c d => RRect (p a) (p b) (p c) (p d)
  | RPhysicalProperties true d f e fw ew => RPhysicalProperties true (p d) (p f) (p e) (p fw) (p ew)
  | RPhysicalProperties false _ _ _ _ _ => RPhysicalProperties false 0 0 0 0 0
  | ROptional t (Some v) => ROptional t (Some (seen v))
  | RFont family w s _ => RFont family (seen_weight w) (seen_style s) []
  | v => v
  end.
(** Neither a reference nor an optional value *)
Definition simple (v : rvalue) : Prop := match v with RReference _ | ROptional _ _ => False | _ => True end.
