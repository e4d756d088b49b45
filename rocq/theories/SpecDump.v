(** SpecDump.v - specification side for the dump of a binary file. *)
From Verif Require Import Base RbxlValues RbxlArrays RbxlModel RbxlFile RbxValues SpecValues SpecArrays XmlText RbxlDump.

(** ** Text *)
(** Text of a number. *)
Definition number_chars : bytes := str "0123456789+-.eNaInf".
Definition numeric (s : bytes) : Prop := Forall (fun c => In c number_chars) s.
(** NaNs are all written alike; nothing else is lost by the shortest decimal
    text of a floating point number. *)
Definition not_a_number (expbits : N) (mantbits : N) (f : N) : bool :=
  ((f / 2 ^ mantbits) mod 2 ^ expbits =? 2 ^ expbits - 1)%N && negb (f mod 2 ^ mantbits =? 0)%N.
Definition plain32 (f : N) : N := if not_a_number 8 23 f then 0x7fc00000%N else f.
Definition plain64 (f : N) : N := if not_a_number 11 52 f then 0x7ff8000000000000%N else f.
Record float_text (de : denv) : Prop := FloatText {
  ft_num32 : forall f, numeric (de_f32 de f);
  ft_num64 : forall f, numeric (de_f64 de f);
  ft_32 : forall f g, f32 f -> f32 g -> de_f32 de f = de_f32 de g -> plain32 f = plain32 g;
  ft_64 : forall f g, f64 f -> f64 g -> de_f64 de f = de_f64 de g -> plain64 f = plain64 g }.

(** ** What can be read off a dump *)
Definition plain_vec3 (v : vec3) : vec3 := Vec3 (plain32 (v3x v)) (plain32 (v3y v)) (plain32 (v3z v)).
(** NaNs of a value made alike *)
Definition plain (v : value) : value :=
  match v with
  | VFloat f => VFloat (plain32 f)
  | VDouble f => VDouble (plain64 f)
  | VUDim s o => VUDim (plain32 s) o
  | VUDim2 sx sy ox oy => VUDim2 (plain32 sx) (plain32 sy) ox oy
  | VRay a b c d e f => VRay (plain32 a) (plain32 b) (plain32 c) (plain32 d) (plain32 e) (plain32 f)
  | VColor3 r g b => VColor3 (plain32 r) (plain32 g) (plain32 b)
  | VVector2 x y => VVector2 (plain32 x) (plain32 y)
  | VVector3 p => VVector3 (plain_vec3 p)
  | VCFrame sp rot p => VCFrame sp (map plain32 rot) (plain_vec3 p)
  | VCFrameQuat sp x y z w p => VCFrameQuat sp (plain32 x) (plain32 y) (plain32 z) (plain32 w) (plain_vec3 p)
  | VNumberSequence ks =>
      VNumberSequence (map (fun k => NSK (plain32 (ns_time k)) (plain32 (ns_value k)) (plain32 (ns_env k))) ks)
  | VColorSequence ks =>
      VColorSequence (map (fun k => CSK (plain32 (cs_time k)) (plain32 (cs_r k)) (plain32 (cs_g k)) (plain32 (cs_b k))
                                        (plain32 (cs_env k))) ks)
  | VNumberRange a b => VNumberRange (plain32 a) (plain32 b)
  | VRect a b c d => VRect (plain32 a) (plain32 b) (plain32 c) (plain32 d)
  | VPhysicalProperties cp d f e fw ew =>
      VPhysicalProperties cp (plain32 d) (plain32 f) (plain32 e) (plain32 fw) (plain32 ew)
  | v => v
  end.
(** What the format stores of a value, NaNs made alike. *)
Definition shown (v : value) : value := plain (stored v).
Fixpoint shown_array (a : array) : array :=
  match a with
  | ARR t vs => ARR t (map shown vs)
  | AOPT None ps => AOPT None ps
  | AOPT (Some a) ps => AOPT (Some (shown_array a)) ps
  end.
Definition shown_chunk (c : chunk) : chunk :=
  Chunk (ch_compressed c)
    match ch_payload c with
    | PProp id name (Some a) => PProp id name (Some (shown_array a))
    | p => p
    end.

(** ** Arrays that cannot be dumped *)
(** Element i of an array is missing, at some level of optional arrays. *)
Fixpoint missing (a : array) (i : nat) : Prop :=
  match a with
  | AOPT (Some a) ps => nth_error ps i = Some false \/ missing a i
  | _ => False
  end.
(** An optional array of optional arrays in which an inner element is missing. *)
Definition undumpable (a : array) : Prop :=
  exists inner ps i, a = AOPT (Some inner) ps /\ i < arr_len inner /\ missing inner i.
Definition nested (a : array) : Prop := exists a' ps ps', a = AOPT (Some (AOPT a' ps')) ps.

(** ** Layout of dumped bytes *)
(** Bytes in rows of sixteen, of which only the last can be shorter. *)
Inductive rows : bytes -> list bytes -> Prop :=
| rows_none : rows [] []
| rows_last b : 0 < length b <= 16 -> rows b [b]
| rows_more b r rs : length b = 16 -> r <> [] -> rows r rs -> rows (b ++ r) (b :: rs).
Definition two_hex (c : byte) : bytes :=
  [nth (N.to_nat (b2N c) / 16) (str "0123456789abcdef") x00; nth (N.to_nat (b2N c) mod 16) (str "0123456789abcdef") x00].
(** A wider gap after the eighth column *)
Definition column (pad : bool) (row : bytes) (c : nat) : bytes :=
  let gap := if (c =? 7)%nat then str "  " else str " " in
  match nth_error row c with Some x => two_hex x ++ gap | None => if pad then str "  " ++ gap else [] end.
Definition row_text (indent : nat) (pad : bool) (row : bytes) : bytes :=
  x0a :: repeat x09 (S indent) ++ str "| " ++ flat_map (column pad row) (seq 0 16) ++ str "|" ++
  map (fun c => if (b2N c <? 32)%N || (126 <? b2N c)%N then x2e else c) row ++ str "|".

(** ** Errors of the container *)
(** The dumps of the partly read chunks inside errored chunks do not panic. *)
Definition inner_fine (de : denv) (inner : nat -> payload) : Prop := forall i cs, dump_payload de 3 cs (inner i) <> Panic.
(** Some column of properties cannot be dumped. *)
Definition has_undumpable (f : fmodel) : Prop :=
  exists c id name a, In c (fm_chunks f) /\ ch_payload c = PProp id name (Some a) /\ undumpable a.
Definition has_nested (f : fmodel) : Prop :=
  exists c id name a, In c (fm_chunks f) /\ ch_payload c = PProp id name (Some a) /\ nested a.
Definition has_errored (f : fmodel) : Prop := exists c s o e b, In c (fm_chunks f) /\ ch_payload c = PErrored s o e b.

(** strconv.IsPrint holds for no control character. *)
Definition print_table (de : denv) : Prop := forall r, de_print de r = true -> (0x20 <= r)%N /\ r <> 0x7f%N.

(** ** Labels *)
(** What a value is shown as: a number, a word, text, or a block of lines, each
    with a label or, for sequences, an index. *)
Inductive item :=
| INum32 (f : N) | INum64 (f : N) | IInt (z : Z) | IWord (w : bytes) | IText (s : bytes) | ITime (t : N)
| IBlock (lines : list (String.string * item))
| INumbers (l : list N)                       (* lines of numbers without labels *)
| ISequence (l : list item).
Definition INat (n : N) : item := IInt (Z.of_N n).
Definition IBool (b : bool) : item := IWord (if b then str "true" else str "false").
Fixpoint show (de : denv) (k : nat) (i : item) : bytes :=
  match i with
  | INum32 f => de_f32 de f
  | INum64 f => de_f64 de f
  | IInt z => FormatInt z
  | IWord w => w
  | IText s => dumpString de k s
  | ITime t => de_time de t
  | IBlock lines =>
      str "{" ++ flat_map (fun l => x0a :: repeat x09 (S k) ++ str (fst l) ++ str ": " ++ show de (S k) (snd l)) lines ++
      x0a :: repeat x09 k ++ str "}"
  | INumbers l => str "{" ++ flat_map (fun f => x0a :: repeat x09 (S k) ++ de_f32 de f) l ++ x0a :: repeat x09 k ++ str "}"
  | ISequence l =>
      str "(count:" ++ FormatInt (Z.of_nat (length l)) ++ str ") {" ++
      concat (map (fun ni => x0a :: repeat x09 (S k) ++ FormatInt (Z.of_nat (fst ni)) ++ str ": " ++ snd ni)
                  (combine (seq 0 (length l)) (map (show de (S k)) l))) ++ str "}"
  end.
Definition vec2_item (x y : N) : item := IBlock [("X", INum32 x); ("Y", INum32 y)]%string.
Definition vec3_item (v : vec3) : item := IBlock [("X", INum32 (v3x v)); ("Y", INum32 (v3y v)); ("Z", INum32 (v3z v))]%string.
Definition color_item (r g b : N) : item := IBlock [("R", INum32 r); ("G", INum32 g); ("B", INum32 b)]%string.
Definition named (name : String.string) (n : N) : item := IWord (str name ++ str " (" ++ FormatInt (Z.of_N n) ++ str ")").
(** The fields of a value under their names. *)
Definition item_of (v : value) : item :=
  match v with
  | VString s => IText s
  | VBool b => IBool b
  | VInt n | VReference n | VInt64 n => IInt n
  | VFloat f => INum32 f
  | VDouble f => INum64 f
  | VUDim s o => IBlock [("Scale", INum32 s); ("Offset", IInt o)]
  | VUDim2 sx sy ox oy => IBlock [("X.Scale", INum32 sx); ("X.Offset", IInt ox); ("Y.Scale", INum32 sy); ("Y.Offset", IInt oy)]
  | VRay ox oy oz dx dy dz =>
      IBlock [("Origin.X", INum32 ox); ("Origin.Y", INum32 oy); ("Origin.Z", INum32 oz);
              ("Direction.X", INum32 dx); ("Direction.Y", INum32 dy); ("Direction.Z", INum32 dz)]
  | VFaces r t b l bo f =>
      IBlock [("Right", IBool r); ("Top", IBool t); ("Back", IBool b); ("Left", IBool l); ("Bottom", IBool bo); ("Front", IBool f)]
  | VAxes x y z => IBlock [("X", IBool x); ("Y", IBool y); ("Z", IBool z)]
  | VBrickColor n | VToken n | VSharedString n => INat n
  | VColor3 r g b => color_item r g b
  | VVector2 x y => vec2_item x y
  | VVector3 p => vec3_item p
  | VVector2int16 x y => IBlock [("X", IInt x); ("Y", IInt y)]
  | VCFrame sp rot p =>
      IBlock ([("ID", INat (b2N sp))] ++ (if Byte.eqb sp x00 then [("Rotation", INumbers rot)] else []) ++ [("Position", vec3_item p)])
  | VCFrameQuat sp qx qy qz qw p =>
      IBlock [("ID", INat (b2N sp)); ("QX", INum32 qx); ("QY", INum32 qy); ("QZ", INum32 qz); ("QW", INum32 qw); ("Position", vec3_item p)]
  | VVector3int16 x y z => IBlock [("X", IInt x); ("Y", IInt y); ("Z", IInt z)]
  | VNumberSequence ks =>
      ISequence (map (fun k => IBlock [("Time", INum32 (ns_time k)); ("Value", INum32 (ns_value k)); ("Envelope", INum32 (ns_env k))]) ks)
  | VColorSequence ks =>
      ISequence (map (fun k => IBlock [("Time", INum32 (cs_time k)); ("Value", color_item (cs_r k) (cs_g k) (cs_b k));
                                       ("Envelope", INum32 (cs_env k))]) ks)
  | VNumberRange a b => IBlock [("Min", INum32 a); ("Max", INum32 b)]
  | VRect a b c d => IBlock [("Min", vec2_item a b); ("Max", vec2_item c d)]
  | VPhysicalProperties cp d f e fw ew =>
      IBlock ([("CustomPhysics", INat (b2N cp))] ++
        if Byte.eqb cp x00 then []
        else [("Density", INum32 d); ("Friction", INum32 f); ("Elasticity", INum32 e); ("FrictionWeight", INum32 fw); ("ElasticityWeight", INum32 ew)])
  | VColor3uint8 r g b => IBlock [("R", INat (b2N r)); ("G", INat (b2N g)); ("B", INat (b2N b))]
  | VUniqueId r t i =>
      IBlock [("(String)", IWord (uniqueid_string r t i)); ("Random", IInt r); ("Time", ITime t); ("Index", INat i)]
  | VFont fam w st cached =>
      IBlock [("Family", IText fam); ("Weight", named (fontweight_string w) w); ("Style", named (fontstyle_string (b2N st)) (b2N st));
              ("CachedFaceId", IText cached)]
  end%string.
(** The two types that are not shown like this. *)
Definition mislabelled (v : value) : Prop :=
  match v with VUDim2 _ _ _ _ | VCFrameQuat _ _ _ _ _ _ => True | _ => False end.
