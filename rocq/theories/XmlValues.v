(** XmlValues.v - properties as tags read back. *)
From Coq Require Import ZifyN.
From Verif Require Import Base RbxlValues RbxValues Tree SpecValues SpecCodec XmlText XmlDoc XmlCodec SpecXml XmlTextProofs XmlLayout XmlBare.
Local Notation string := String.string.

(** ** Components *)
Section Components.
Variable (fl : floats).
Inductive comp : ckind -> bytes -> tag -> cval -> Prop :=
| comp_f c t g : fl_parse32 fl c = Some g -> comp CF32 c t (VF g)
| comp_i16 c t z : ParseInt 16 c = PVal z -> comp CI16 c t (VZ z)
| comp_i32 c t z : ParseInt 32 c = PVal z -> comp CI32 c t (VZ z)
| comp_w c t z : ParseInt 16 c = PVal z -> comp CWeight c t (VZ (z mod 2 ^ 16))
| comp_s c t n : FontStyleFromString (String.string_of_list_byte c) = Some n -> comp CStyle c t (VZ (Z.of_N n))
| comp_t c t : comp CTag c t (VT t).
Lemma getFrom_step want seen vals t ts k v : mfind want (t_start t) = Some k -> existsb (bytes_eqb (t_start t)) seen = false ->
  comp k (getContent t) t v -> getFrom_loop fl want seen vals (t :: ts) = getFrom_loop fl want (t_start t :: seen) ((t_start t, v) :: vals) ts.
Proof. intros E1 E2 H. cbn [getFrom_loop]. rewrite E1, E2. destruct H as [c t g H|c t g H|c t g H|c t g H|c t g H|c t]; rewrite ?H; reflexivity. Qed.
Lemma getFrom_skip want seen vals t ts : mfind want (t_start t) = None ->
  getFrom_loop fl want seen vals (t :: ts) = getFrom_loop fl want seen vals ts.
Proof. intros E1. cbn [getFrom_loop]. now rewrite E1. Qed.
End Components.

Lemma ParseInt_in (bits : Z) z : (2 <= bits)%Z -> int_range bits z -> ParseInt (Z.to_N bits) (FormatInt z) = PVal z.
Proof.
  intros Hb Hz. apply ParseInt_Format; [lia|]. unfold int_range, in_range in *.
  rewrite N2Z.inj_pow. replace (Z.of_N (Z.to_N bits - 1)) with (bits - 1)%Z by lia. exact Hz.
Qed.

(** ** Text of numbers *)
Lemma word_no_cr t : word t -> no_cr t = true.
Proof. intros [_ H]. revert H. apply forallb_imp. intros b. now destruct b. Qed.
Section Values.
Variable (env : xenv) (discard : bool).
Let fl := xe_fl env.
Hypothesis Hfl : floats_ok fl.
Definition ftext (prec f : N) : bytes := match encodeFloatPrec fl prec f with OK t => t | _ => [] end.
Lemma ftext_ok prec f : (prec = 6 \/ prec = 9)%N -> f32 f ->
  encodeFloatPrec fl prec f = OK (ftext prec f) /\ word (ftext prec f) /\ fl_parse32 fl (ftext prec f) = Some (again32 fl prec f).
Proof. intros Hp Hf. destruct (fo_32 fl Hfl prec f Hp Hf) as (t & g & E & W & P). unfold ftext, again32. rewrite E, P. split; [reflexivity|]. split; [exact W|reflexivity]. Qed.
Lemma ftext9 f : f32 f -> encodeFloat fl f = OK (ftext 9 f) /\ nl_text (ftext 9 f) = ftext 9 f /\ fl_parse32 fl (ftext 9 f) = Some (again9 fl f).
Proof.
  intros Hf. destruct (ftext_ok 9 f) as (E & W & P); [now right|assumption|]. repeat split; [exact E| |exact P].
  apply nl_text_no_cr. now apply word_no_cr.
Qed.
Lemma comp_float n f : f32 f -> comp fl CF32 (getContent (settled (leaf n (ftext 9 f) true))) (settled (leaf n (ftext 9 f) true)) (VF (again9 fl f)).
Proof. intros Hf. destruct (ftext9 f Hf) as (_ & E & P). constructor. cbn [settled leaf getContent t_cdata t_text]. now rewrite E. Qed.
Lemma comp_float' n f : f32 f -> comp fl CF32 (getContent (settled (leaf n (ftext 9 f) false))) (settled (leaf n (ftext 9 f) false)) (VF (again9 fl f)).
Proof. intros Hf. destruct (ftext9 f Hf) as (_ & E & P). constructor. cbn [settled leaf getContent t_cdata t_text]. now rewrite E. Qed.
Lemma comp_int32 n z : int_range 32 z -> comp fl CI32 (getContent (settled (int_leaf n z))) (settled (int_leaf n z)) (VZ z).
Proof.
  intros Hz. constructor. cbn [settled int_leaf leaf getContent t_cdata t_text]. rewrite nl_text_no_cr by apply FormatInt_no_cr.
  now apply (ParseInt_in 32).
Qed.
Lemma comp_int16 n z : int_range 16 z -> comp fl CI16 (getContent (settled (int_leaf n z))) (settled (int_leaf n z)) (VZ z).
Proof.
  intros Hz. constructor. cbn [settled int_leaf leaf getContent t_cdata t_text]. rewrite nl_text_no_cr by apply FormatInt_no_cr.
  now apply (ParseInt_in 16).
Qed.
Lemma comp_uint32 n z : (z < 2 ^ 31)%N -> comp fl CI32 (getContent (settled (leaf n (FormatUint z) true))) (settled (leaf n (FormatUint z) true)) (VZ (Z.of_N z)).
Proof.
  intros Hz. constructor. cbn [settled int_leaf leaf getContent t_cdata t_text]. rewrite nl_text_no_cr by apply FormatUint_no_cr.
  replace (FormatUint z) with (FormatInt (Z.of_N z)).
  - apply (ParseInt_in 32); [lia|]. unfold int_range. change (2 ^ (32 - 1))%Z with (Z.of_N (2 ^ 31)). lia.
  - unfold FormatInt. destruct (Z.ltb_spec (Z.of_N z) 0); [lia|]. now rewrite N2Z.id.
Qed.
Lemma float_leaf_ok n f : f32 f -> float_leaf env (n, f) = OK (leaf n (ftext 9 f) true).
Proof. intros Hf. unfold float_leaf. cbn [fst snd]. destruct (ftext9 f Hf) as (E & _). fold fl. rewrite E. reflexivity. Qed.
Lemma floats_ok_all l : Forall (fun nf => f32 (snd nf)) l -> all_ok (float_leaf env) l = OK (map (fun nf => leaf (fst nf) (ftext 9 (snd nf)) true) l).
Proof.
  induction 1 as [|[n f] l Hf _ IH]; [reflexivity|]. cbn [all_ok map fst snd]. rewrite float_leaf_ok by exact Hf. cbn [obind]. rewrite IH. reflexivity.
Qed.
Lemma floats_node_ok start l : Forall (fun nf => f32 (snd nf)) l ->
  floats_node env start l = OK (node (str start) (map (fun nf => leaf (fst nf) (ftext 9 (snd nf)) true) l)).
Proof. intros H. unfold floats_node. rewrite floats_ok_all by exact H. reflexivity. Qed.

(** One component after the other. *)
Ltac step tac := erewrite (getFrom_step fl); [|reflexivity|reflexivity|tac].
Ltac fstep := step ltac:(first [apply comp_float; assumption | apply comp_float'; assumption]).
Ltac istep := step ltac:(first [apply comp_int32; assumption | apply comp_int16; assumption]).
Ltac tstep := step ltac:(apply comp_t).
Ltac skip := rewrite (getFrom_skip fl); [|reflexivity].
Ltac comps := unfold getFrom; cbn [settled node map t_tags fst snd]; repeat first [fstep | istep | tstep | skip]; cbn [getFrom_loop].

Definition back (v : rvalue) (t : tag) : Prop :=
  plain_tag t = true /\ t_attr t = [] /\
  exists typ, GetCanonType (t_start t) = (typ, false) /\ getValue env discard (settled t) typ = OK (xml_value_or fl discard v, []).

Ltac pick :=
  repeat match goal with |- (if N.eqb ?a ?b then _ else _) = _ => let r := eval vm_compute in (N.eqb a b) in change (N.eqb a b) with r; cbv iota end.
Ltac gv ty := split; [reflexivity|]; split; [reflexivity|]; exists ty; split; [reflexivity|]; unfold getValue, xml_value_or, xml_value; cbv zeta; fold fl; pick.
Lemma back_axes x y z : back (RAxes x y z) (node (str "Axes") [leaf "axes" (FormatUint (bits_of [x; y; z])) true]).
Proof.
  gv TypeAxes. unfold getFrom. cbn [settled node map t_tags]. step ltac:(apply comp_uint32; destruct x, y, z; reflexivity). destruct x, y, z; reflexivity.
Qed.
Lemma back_faces a b c d e f : back (RFaces a b c d e f) (node (str "Faces") [leaf "faces" (FormatUint (bits_of [a; b; c; d; e; f])) true]).
Proof.
  gv TypeFaces. unfold getFrom. cbn [settled node map t_tags]. step ltac:(apply comp_uint32; destruct a, b, c, d, e, f; reflexivity).
  destruct a, b, c, d, e, f; reflexivity.
Qed.
Lemma content_leaf_plain n t : has_cdata_end t = false -> content_leaf n t = leaf n t true.
Proof. unfold content_leaf. now intros ->. Qed.
Lemma back_binary s t : b64_text t s -> back (RBinaryString s) (leaf "BinaryString" t true).
Proof.
  intros (H1 & H2 & _). gv TypeBinaryString. cbn [settled leaf getContent t_cdata t_text]. rewrite nl_text_no_cr by exact H2. now rewrite H1.
Qed.
Lemma back_bool b : back (RBool b) (leaf "bool" (if b then str "true" else str "false") true).
Proof. destruct b; gv TypeBool; reflexivity. Qed.
Lemma parse_int_uint n : ParseInt 32 (FormatUint n) = if (n <=? int32_max)%N then PVal (Z.of_N n) else PRange (Z.of_N int32_max).
Proof.
  replace (FormatUint n) with (FormatInt (Z.of_N n)) by (unfold FormatInt; destruct (Z.ltb_spec (Z.of_N n) 0); [lia|now rewrite N2Z.id]).
  destruct (ParseInt_Format 32 (Z.of_N n) ltac:(lia)) as [H1 H2]. unfold in_range, clamp in *. change (32 - 1)%N with 31%N in *.
  unfold int32_max. destruct (N.leb_spec n (2 ^ 31 - 1)) as [H|H].
  - apply H1. set (c := (2 ^ 31)%N) in *. assert (0 < c)%N by reflexivity. lia.
  - rewrite H2; [f_equal|]; set (c := (2 ^ 31)%N) in *; assert (0 < c)%N by reflexivity; lia.
Qed.
Lemma back_brickcolor n : back (RBrickColor n) (leaf "int" (FormatUint n) true).
Proof.
  gv TypeInt. cbn [settled leaf getContent t_cdata t_text]. rewrite nl_text_no_cr by apply FormatUint_no_cr. rewrite parse_int_uint.
  destruct (N.leb_spec n int32_max) as [H|H]; unfold get_int; do 4 f_equal; lia.
Qed.
Lemma toN_of_N n : (n <= int32_max)%N -> toN 32 (Z.of_N n) = n.
Proof. intros H. unfold toN, int32_max in *. rewrite Z.mod_small; [lia|]. change (2 ^ 32)%Z with (Z.of_N (2 ^ 32)). change (2 ^ 31)%N with 2147483648%N in H. change (2 ^ 32)%N with 4294967296%N. lia. Qed.
Lemma back_token n : back (RToken n) (leaf "token" (FormatUint n) true).
Proof.
  gv TypeToken. cbn [settled leaf getContent t_cdata t_text]. rewrite nl_text_no_cr by apply FormatUint_no_cr. rewrite parse_int_uint.
  destruct (N.leb_spec n int32_max) as [H|H]; unfold get_int; rewrite toN_of_N by lia; do 4 f_equal; lia.
Qed.
Lemma back_int n : int_range 32 n -> back (RInt n) (int_leaf "int" n).
Proof.
  intros H. gv TypeInt. cbn [settled int_leaf leaf getContent t_cdata t_text]. rewrite nl_text_no_cr by apply FormatInt_no_cr. now rewrite (ParseInt_in 32).
Qed.
Lemma back_int64 n : int_range 64 n -> back (RInt64 n) (int_leaf "int64" n).
Proof.
  intros H. gv TypeInt64. cbn [settled int_leaf leaf getContent t_cdata t_text]. rewrite nl_text_no_cr by apply FormatInt_no_cr. now rewrite (ParseInt_in 64).
Qed.
Lemma back_string s : back (RString s) (leaf "string" s true).
Proof. gv TypeString. reflexivity. Qed.
Lemma back_protected s : has_cdata_end s = false -> back (RProtectedString s) (content_leaf "ProtectedString" s).
Proof. intros H. rewrite content_leaf_plain by exact H. gv TypeProtectedString. reflexivity. Qed.
Lemma get_content_tag start s : get_content discard (settled (with_start start (content_tag s))) = (Some (nl_text s), []).
Proof. destruct s as [|b s]; reflexivity. Qed.
Lemma back_content s : back (RContent s) (content_tag s).
Proof. split; [now destruct s|]. split; [now destruct s|]. exists TypeContent. split; [now destruct s|].
  unfold getValue, xml_value_or, xml_value; cbv zeta; fold fl; pick. change (content_tag s) with (with_start (str "Content") (content_tag s)). rewrite get_content_tag. reflexivity.
Qed.
Lemma back_double f : f64 f -> back (RDouble f) (leaf "double" (encodeDouble fl f) true).
Proof.
  intros H. gv TypeDouble. cbn [settled leaf getContent t_cdata t_text]. destruct (fo_64 fl Hfl f H) as (W & g & E).
  rewrite nl_text_no_cr by (now apply word_no_cr). unfold again64. now rewrite E.
Qed.
Lemma back_float f : f32 f -> back (RFloat f) (leaf "float" (ftext 9 f) true).
Proof.
  intros H. gv TypeFloat. cbn [settled leaf getContent t_cdata t_text]. destruct (ftext9 f H) as (_ & E1 & E2). now rewrite E1, E2.
Qed.
Ltac use_comps := comps; cbn [length Nat.eqb].
Lemma plain_floats start l : good_name (str start) = true -> forallb (fun nf => good_name (str (fst nf))) l = true ->
  plain_tag (node (str start) (map (fun nf => leaf (fst nf) (ftext 9 (snd nf)) true) l)) = true.
Proof.
  intros H1 H2. cbn [plain_tag node]. rewrite H1. cbn [negb nonempty andb forallb]. rewrite forallb_forall in H2 |- *. intros t Ht.
  apply in_map_iff in Ht as ([n f] & <- & Hi). specialize (H2 _ Hi). cbn [fst snd] in *. cbn [plain_tag leaf]. now rewrite H2.
Qed.
Lemma back_color3 r g b : f32 r -> f32 g -> f32 b ->
  back (RColor3 r g b) (node (str "Color3") (map (fun nf => leaf (fst nf) (ftext 9 (snd nf)) true) [("R", r); ("G", g); ("B", b)]%string)).
Proof. intros Hr Hg Hb. gv TypeColor3. cbn [getContent settled node t_cdata t_text nl_text nonempty]. use_comps. reflexivity. Qed.
Lemma back_vector2 r g : f32 r -> f32 g ->
  back (RVector2 r g) (node (str "Vector2") (map (fun nf => leaf (fst nf) (ftext 9 (snd nf)) true) [("X", r); ("Y", g)]%string)).
Proof. intros Hr Hg. gv TypeVector2. unfold get_vec2, getFrom_opt. fold fl. use_comps. reflexivity. Qed.
Definition vec3_out (start : string) (v : vec3) : tag :=
  node (str start) (map (fun nf => leaf (fst nf) (ftext 9 (snd nf)) true) [("X", v3x v); ("Y", v3y v); ("Z", v3z v)]%string).
Lemma vec3_node_ok start v : wf_vec3 v -> vec3_node env start v = OK (vec3_out start v).
Proof. intros (Hx & Hy & Hz). unfold vec3_node. apply floats_node_ok. now repeat constructor. Qed.
Lemma get_vec3_ok start v : wf_vec3 v -> get_vec3 env (Some (settled (vec3_out start v))) = (true, vec3_map (again9 fl) v).
Proof. intros (Hx & Hy & Hz). unfold get_vec3, getFrom_opt, vec3_out. fold fl. use_comps. reflexivity. Qed.
Lemma back_vector3 v : wf_vec3 v -> back (RVector3 v) (vec3_out "Vector3" v).
Proof. intros H. gv TypeVector3. rewrite get_vec3_ok by exact H. reflexivity. Qed.
Lemma back_ray o d : wf_vec3 o -> back (RRay o d) (node (str "Ray") [vec3_out "origin" o; vec3_out "direction" o]).
Proof.
  intros H. gv TypeRay.
  assert (E : getFrom fl (wants CTag ["origin"; "direction"]%string) (settled (node (str "Ray") [vec3_out "origin" o; vec3_out "direction" o])) =
    (true, [(str "direction", VT (settled (vec3_out "direction" o))); (str "origin", VT (settled (vec3_out "origin" o)))])) by reflexivity.
  rewrite E. change (vt _ "origin") with (Some (settled (vec3_out "origin" o))). change (vt _ "direction") with (Some (settled (vec3_out "direction" o))).
  rewrite !get_vec3_ok by exact H. reflexivity.
Qed.
Lemma back_udim a o : f32 a -> int_range 32 o -> back (RUDim a o) (node (str "UDim") [leaf "S" (ftext 9 a) true; int_leaf "O" o]).
Proof. intros H1 H2. gv TypeUDim. use_comps. reflexivity. Qed.
Lemma back_udim2 a o b p : f32 a -> int_range 32 o -> f32 b -> int_range 32 p ->
  back (RUDim2 a o b p) (node (str "UDim2") [leaf "XS" (ftext 9 a) true; int_leaf "XO" o; leaf "YS" (ftext 9 b) true; int_leaf "YO" p]).
Proof. intros H1 H2 H3 H4. gv TypeUDim2. use_comps. reflexivity. Qed.
Lemma back_v2i x y : int_range 16 x -> int_range 16 y -> back (RVector2int16 x y) (node (str "Vector2int16") [int_leaf "X" x; int_leaf "Y" y]).
Proof. intros H1 H2. gv TypeVector2int16. use_comps. reflexivity. Qed.
Lemma back_v3i x y z : int_range 16 x -> int_range 16 y -> int_range 16 z ->
  back (RVector3int16 x y z) (node (str "Vector3int16") [int_leaf "X" x; int_leaf "Y" y; int_leaf "Z" z]).
Proof. intros H1 H2 H3. gv TypeVector3int16. use_comps. reflexivity. Qed.
Definition rot_names : list string := ["R00"; "R01"; "R02"; "R10"; "R11"; "R12"; "R20"; "R21"; "R22"]%string.
Definition cframe_list (pos : vec3) (rot : list N) : list (string * N) :=
  [("X", v3x pos); ("Y", v3y pos); ("Z", v3z pos)]%string ++ combine rot_names rot.
Definition cframe_out (start : bytes) (pos : vec3) (rot : list N) : tag :=
  node start (map (fun nf => leaf (fst nf) (ftext 9 (snd nf)) true) (cframe_list pos rot)).
Lemma combine_f32 (l : list string) : forall rot, Forall f32 rot -> Forall (fun nf => f32 (snd nf)) (combine l rot).
Proof. induction l as [|n l IH]; intros rot H; [constructor|]. destruct H as [|r rot Hr H]; [constructor|]. constructor; [exact Hr|now apply IH]. Qed.
Lemma cframe_ok pos rot : wf_vec3 pos -> Forall f32 rot -> encode_cframe env pos rot = OK (cframe_out (str "CoordinateFrame") pos rot).
Proof. intros (Hx & Hy & Hz) Hr. unfold encode_cframe. apply floats_node_ok. repeat (constructor; [assumption|]). now apply combine_f32. Qed.
Lemma rot9 (rot : list N) : length rot = 9 -> exists a b c d e f g h i, rot = [a; b; c; d; e; f; g; h; i].
Proof. intros H. do 9 (destruct rot as [|? rot]; [discriminate H|]). destruct rot; [|discriminate H]. repeat eexists. Qed.
Lemma back_cframe_at start pos rot : wf_vec3 pos -> length rot = 9 -> Forall f32 rot ->
  getValue env discard (settled (cframe_out start pos rot)) TypeCFrame = OK (Some (RCFrame (vec3_map (again9 fl) pos) (map (again9 fl) rot)), []).
Proof.
  intros (Hx & Hy & Hz) Hl Hr. destruct (rot9 rot Hl) as (a & b & c & d & e & f & g & h & i & ->).
  repeat match goal with H : Forall _ (_ :: _) |- _ => apply Forall_cons_iff in H as [? H] end.
  unfold getValue; cbv zeta; fold fl; pick. unfold cframe_out, cframe_list, rot_names. cbn [app combine]. use_comps. reflexivity.
Qed.
Lemma back_cframe pos rot : wf_vec3 pos -> length rot = 9 -> Forall f32 rot -> back (RCFrame pos rot) (cframe_out (str "CoordinateFrame") pos rot).
Proof.
  intros Hp Hl Hr. split.
  - destruct (rot9 rot Hl) as (a & b & c & d & e & f & g & h & i & ->). reflexivity.
  - split; [reflexivity|]. exists TypeCFrame. split; [reflexivity|]. now rewrite back_cframe_at.
Qed.
Definition vec2_out (start : string) (a b : N) : tag :=
  node (str start) (map (fun nf => leaf (fst nf) (ftext 9 (snd nf)) true) [("X", a); ("Y", b)]%string).
Lemma get_vec2_ok start a b : f32 a -> f32 b -> get_vec2 env (Some (settled (vec2_out start a b))) = (true, (again9 fl a, again9 fl b)).
Proof. intros H1 H2. unfold get_vec2, getFrom_opt, vec2_out. fold fl. use_comps. reflexivity. Qed.
Lemma back_rect a b c d : f32 a -> f32 b -> f32 c -> f32 d -> back (RRect a b c d) (node (str "Rect2D") [vec2_out "min" a b; vec2_out "max" c d]).
Proof.
  intros Ha Hb Hc Hd. gv TypeRect.
  assert (E : getFrom fl (wants CTag ["min"; "max"]%string) (settled (node (str "Rect2D") [vec2_out "min" a b; vec2_out "max" c d])) =
    (true, [(str "max", VT (settled (vec2_out "max" c d))); (str "min", VT (settled (vec2_out "min" a b)))])) by reflexivity.
  rewrite E. change (vt _ "min") with (Some (settled (vec2_out "min" a b))). change (vt _ "max") with (Some (settled (vec2_out "max" c d))).
  rewrite !get_vec2_ok by assumption. reflexivity.
Qed.
Lemma back_phys a b c d e : f32 a -> f32 b -> f32 c -> f32 d -> f32 e -> back (RPhysicalProperties true a b c d e)
  (node (str "PhysicalProperties") (leaf "CustomPhysics" (str "true") false ::
    map (fun nf => leaf (fst nf) (ftext 9 (snd nf)) false) [("Density", a); ("Friction", b); ("Elasticity", c); ("FrictionWeight", d); ("ElasticityWeight", e)]%string)).
Proof.
  intros Ha Hb Hc Hd He. gv TypePhysicalProperties. cbn [map fst snd].
  match goal with |- context [getFrom fl (wants CTag ["CustomPhysics"]%string) ?t] =>
    assert (E : getFrom fl (wants CTag ["CustomPhysics"]%string) t = (true, [(str "CustomPhysics", VT (settled (leaf "CustomPhysics" (str "true") false)))])) by reflexivity
  end.
  rewrite E. cbv iota. change (vt _ "CustomPhysics") with (Some (settled (leaf "CustomPhysics" (str "true") false))). cbv iota.
  change (get_bool discard (settled (leaf "CustomPhysics" (str "true") false))) with (Some true). cbv iota.
  use_comps. reflexivity.
Qed.
Lemma back_phys_none a b c d e : back (RPhysicalProperties false a b c d e) (node (str "PhysicalProperties") [leaf "CustomPhysics" (str "false") false]).
Proof. gv TypePhysicalProperties. reflexivity. Qed.
Lemma back_color3uint8 r g b : back (RColor3uint8 r g b)
  (leaf "Color3uint8" (FormatUint (0xFF * 2 ^ 24 + b2N r * 2 ^ 16 + b2N g * 2 ^ 8 + b2N b)) true).
Proof.
  gv TypeColor3uint8. cbn [settled leaf getContent t_cdata t_text]. rewrite nl_text_no_cr by apply FormatUint_no_cr. rewrite FormatUint_nonempty.
  rewrite ParseUint_Format. pose proof (b2N_lt r) as Hr. pose proof (b2N_lt g) as Hg. pose proof (b2N_lt b) as Hb.
  set (x := b2N r) in *. set (y := b2N g) in *. set (z := b2N b) in *.
  change (2 ^ 24)%N with 16777216%N. change (2 ^ 16)%N with 65536%N. change (2 ^ 8)%N with 256%N. change (2 ^ 32)%N with 4294967296%N.
  replace (255 * 16777216 + x * 65536 + y * 256 + z <? 4294967296)%N with true by (symmetry; apply N.ltb_lt; lia).
  unfold get_int, packed. rewrite !N.shiftr_div_pow2. change (2 ^ 16)%N with 65536%N. change (2 ^ 8)%N with 256%N. change (2 ^ 0)%N with 1%N.
  do 3 f_equal. f_equal; apply N2b_eq; fold x y z; dm.
Qed.

(** ** Sequences *)
Definition seq_text (l : list N) : bytes := flat_map (fun f => ftext 6 f ++ [x20]) l.
Lemma ftext6 f : f32 f -> encodeFloatPrec fl 6 f = OK (ftext 6 f) /\ word (ftext 6 f) /\ fl_parse32 fl (ftext 6 f) = Some (again6 fl f).
Proof. intros Hf. apply ftext_ok; [now left|assumption]. Qed.
Lemma prec6_ok l : Forall f32 l -> prec6 env l = OK (seq_text l).
Proof.
  induction 1 as [|f l Hf _ IH]; [reflexivity|]. cbn [prec6]. fold fl. destruct (ftext6 f Hf) as (E & _). rewrite E. cbn [obind]. rewrite IH. cbn [obind].
  unfold seq_text. cbn [flat_map]. now rewrite <- app_assoc.
Qed.
Lemma seq_no_cr l : Forall f32 l -> no_cr (seq_text l) = true.
Proof.
  induction 1 as [|f l Hf _ IH]; [reflexivity|]. unfold seq_text. cbn [flat_map]. rewrite !no_cr_app. unfold seq_text in IH. rewrite IH.
  destruct (ftext6 f Hf) as (_ & W & _). now rewrite word_no_cr.
Qed.
Lemma scan_word_ok w r : forallb (fun b => negb (isSpace b)) w = true -> forall acc, scan_word acc (w ++ x20 :: r) = Some (acc ++ w, x20 :: r).
Proof.
  induction w as [|b w IH]; intros H acc; cbn [scan_word app]; [now rewrite app_nil_r|].
  cbn [forallb] in H. apply andb_prop in H as [Hb H]. destruct (isSpace b); [discriminate|]. rewrite IH by exact H. now rewrite <- app_assoc.
Qed.
Lemma skip_seq l : Forall f32 l -> skip_space (seq_text l) = seq_text l.
Proof.
  intros H. destruct H as [|f l Hf _]; [reflexivity|]. unfold seq_text. cbn [flat_map]. destruct (ftext6 f Hf) as (_ & [W1 W2] & _).
  destruct (ftext 6 f) as [|b t]; [contradiction|]. cbn [app skip_space]. cbn [forallb] in W2. apply andb_prop in W2 as [W2 _]. now destruct (isSpace b).
Qed.
Lemma scanFloat_seq f l : f32 f -> Forall f32 l -> scanFloat fl (seq_text (f :: l)) = Some (again6 fl f, seq_text l).
Proof.
  intros Hf Hl. unfold scanFloat. change (seq_text (f :: l)) with ((ftext 6 f ++ [x20]) ++ seq_text l). rewrite <- app_assoc. cbn [app].
  destruct (ftext6 f Hf) as (_ & [_ W] & E). rewrite scan_word_ok by exact W. cbn [app]. rewrite E. do 2 f_equal.
  change (skip_space (x20 :: seq_text l)) with (skip_space (seq_text l)). now apply skip_seq.
Qed.
Lemma scanFloats_seq l : Forall f32 l -> forall r, Forall f32 r -> scanFloats fl (length l) (seq_text (l ++ r)) = Some (map (again6 fl) l, seq_text r).
Proof.
  induction 1 as [|f l Hf Hl IH]; intros r Hr; [reflexivity|]. cbn [length scanFloats app map].
  rewrite scanFloat_seq; [|exact Hf|apply Forall_app; now split]. now rewrite IH.
Qed.
Lemma seq_length l : Forall f32 l -> length l <= length (seq_text l).
Proof. induction 1 as [|f l Hf _ IH]; [cbn; lia|]. unfold seq_text in *. cbn [flat_map length]. rewrite !app_length. cbn [length]. lia. Qed.
Lemma scanGroups_seq {K} (g : K -> list N) n : 1 <= n -> forall ks fuel, Forall (fun k => length (g k) = n /\ Forall f32 (g k)) ks ->
  length ks <= fuel -> scanGroups fuel fl n (seq_text (flat_map g ks)) = Some (map (fun k => map (again6 fl) (g k)) ks).
Proof.
  intros Hn. induction ks as [|k ks IH]; intros fuel Hk Hf; [now destruct fuel|]. cbn [flat_map map].
  apply Forall_cons_iff in Hk as [[H1 H2] Hk]. destruct fuel as [|fuel]; [cbn in Hf; lia|].
  assert (Hr : Forall f32 (flat_map g ks)).
  { apply Forall_flat_map. eapply Forall_impl; [|exact Hk]. now intros a []. }
  assert (Hne : exists b r, seq_text (g k ++ flat_map g ks) = b :: r).
  { destruct (g k) as [|f l]; [cbn in H1; lia|]. apply Forall_cons_iff in H2 as [Hf2 _]. unfold seq_text. cbn [app flat_map].
    destruct (ftext 6 f); eexists _, _; reflexivity. }
  destruct Hne as (b & r & Ene). cbn [scanGroups]. rewrite Ene. rewrite <- Ene, <- H1, scanFloats_seq, H1 by assumption.
  rewrite IH; [reflexivity|exact Hk|cbn in Hf; lia].
Qed.
Lemma back_seq (v : rvalue) start typ l : good_name (str start) = true -> GetCanonType (str start) = (typ, false) -> Forall f32 l ->
  (forall t, getContent t = seq_text l -> getValue env discard t typ = OK (xml_value_or fl discard v, [])) -> back v (leaf start (seq_text l) false).
Proof.
  intros Hs Ht Hl H. split; [cbn [plain_tag leaf]; now rewrite Hs|]. split; [reflexivity|]. exists typ. split; [exact Ht|]. apply H.
  cbn [settled leaf getContent t_cdata t_text]. apply nl_text_no_cr. now apply seq_no_cr.
Qed.
Definition ns_floats (k : nskey) : list N := [ns_time k; ns_value k; ns_env k].
Definition cs_floats (k : cskey) : list N := [cs_time k; cs_r k; cs_g k; cs_b k; cs_env k].
Lemma flat_f32 {K} (g : K -> list N) ks : Forall (fun k => Forall f32 (g k)) ks -> Forall f32 (flat_map g ks).
Proof. intros H. now apply Forall_flat_map. Qed.
Lemma flat_length {K} (g : K -> list N) n ks : 1 <= n -> Forall (fun k => length (g k) = n) ks -> length ks <= length (flat_map g ks).
Proof. intros Hn. induction 1 as [|k ks H _ IH]; [cbn; lia|]. cbn [flat_map length]. rewrite app_length. lia. Qed.
Lemma back_nseq ks : Forall wf_key_n ks -> back (RNumberSequence ks) (leaf "NumberSequence" (seq_text (flat_map ns_floats ks)) false).
Proof.
  intros H. assert (Hk : Forall (fun k => length (ns_floats k) = 3 /\ Forall f32 (ns_floats k)) ks).
  { eapply Forall_impl; [|exact H]. intros k (H1 & H2 & H3). split; [reflexivity|]. now repeat (constructor; [assumption|]). }
  assert (Hf : Forall f32 (flat_map ns_floats ks)) by (apply flat_f32; eapply Forall_impl; [|exact Hk]; now intros a []).
  apply (back_seq _ _ TypeNumberSequence); [reflexivity|reflexivity|exact Hf|].
  intros t E. unfold getValue, xml_value_or, xml_value; cbv zeta; fold fl; pick. rewrite E.
  rewrite (scanGroups_seq ns_floats 3); [|lia|exact Hk|].
  - rewrite map_map. reflexivity.
  - etransitivity; [|apply seq_length; exact Hf]. apply (flat_length _ 3); [lia|]. eapply Forall_impl; [|exact Hk]. now intros a [].
Qed.
Lemma back_cseq ks : Forall wf_key_c ks -> back (RColorSequence ks) (leaf "ColorSequence" (seq_text (flat_map cs_floats ks)) false).
Proof.
  intros H. assert (Hk : Forall (fun k => length (cs_floats k) = 5 /\ Forall f32 (cs_floats k)) ks).
  { eapply Forall_impl; [|exact H]. intros k (H1 & H2 & H3 & H4 & H5). split; [reflexivity|]. now repeat (constructor; [assumption|]). }
  assert (Hf : Forall f32 (flat_map cs_floats ks)) by (apply flat_f32; eapply Forall_impl; [|exact Hk]; now intros a []).
  apply (back_seq _ _ TypeColorSequence); [reflexivity|reflexivity|exact Hf|].
  intros t E. unfold getValue, xml_value_or, xml_value; cbv zeta; fold fl; pick. rewrite E.
  rewrite (scanGroups_seq cs_floats 5); [|lia|exact Hk|].
  - rewrite map_map. reflexivity.
  - etransitivity; [|apply seq_length; exact Hf]. apply (flat_length _ 5); [lia|]. eapply Forall_impl; [|exact Hk]. now intros a [].
Qed.
Lemma back_range a b : f32 a -> f32 b -> back (RNumberRange a b) (leaf "NumberRange" (seq_text [a; b]) false).
Proof.
  intros Ha Hb. assert (Hf : Forall f32 [a; b]) by (repeat constructor; assumption).
  apply (back_seq _ _ TypeNumberRange); [reflexivity|reflexivity|exact Hf|].
  intros t E. unfold getValue, xml_value_or, xml_value; cbv zeta; fold fl; pick. rewrite E.
  pose proof (scanFloats_seq [a; b] Hf [] (Forall_nil _)) as G. rewrite app_nil_r in G. cbn [length] in G. now rewrite G.
Qed.
Lemma firstn_exact {A} n (a b : list A) : length a = n -> firstn n (a ++ b) = a.
Proof. intros <-. rewrite firstn_app, Nat.sub_diag, firstn_all. apply app_nil_r. Qed.
Lemma skipn_exact {A} n (a b : list A) : length a = n -> skipn n (a ++ b) = b.
Proof. intros <-. rewrite skipn_app, Nat.sub_diag, skipn_all. reflexivity. Qed.
Lemma back_uniqueid r t i : int_range 64 r -> f32 t -> f32 i ->
  back (RUniqueId r t i) (leaf "UniqueId" (hex_encode (be_bytes 8 (toN 64 r) ++ be_bytes 4 t ++ be_bytes 4 i)) false).
Proof.
  intros Hr Ht Hi. gv TypeUniqueId. cbn [settled leaf t_text]. rewrite nl_text_no_cr by apply hex_no_cr.
  set (b := be_bytes 8 (toN 64 r) ++ be_bytes 4 t ++ be_bytes 4 i).
  assert (Hb : length b = 16) by (unfold b; rewrite !app_length, !be_bytes_length; reflexivity).
  rewrite firstn_all2 by (rewrite hex_length; lia). rewrite hex_decode_encode, Hb. cbn [Nat.ltb Nat.leb].
  assert (E1 : firstn 8 b = be_bytes 8 (toN 64 r)) by (apply firstn_exact, be_bytes_length).
  assert (E2 : skipn 8 b = be_bytes 4 t ++ be_bytes 4 i) by (apply skipn_exact, be_bytes_length).
  assert (E3 : skipn 12 b = be_bytes 4 i) by (unfold b; rewrite app_assoc; apply skipn_exact; rewrite app_length, !be_bytes_length; reflexivity).
  assert (E4 : firstn 4 (be_bytes 4 t ++ be_bytes 4 i) = be_bytes 4 t) by (apply firstn_exact, be_bytes_length).
  assert (E5 : firstn 4 (be_bytes 4 i) = be_bytes 4 i) by (apply firstn_all2; now rewrite be_bytes_length).
  clearbody b. rewrite E1, E2, E3, E4, E5.
  rewrite !be_N_be_bytes_small; [|exact Hi|exact Ht|apply (toN_lt 64); lia]. rewrite ofN_toN; [reflexivity|lia|].
  unfold in_i. unfold int_range in Hr. apply andb_true_intro. split; [apply Z.leb_le|apply Z.ltb_lt]; lia.
Qed.
Definition font_out (family : bytes) (w : N) (style : byte) (cached : bytes) : tag :=
  node (str "Font")
    ([with_start (str "Family") (content_tag family); int_leaf "Weight" (Z.of_N w); leaf "Style" (str (fontstyle_string (b2N style))) true] ++
     match cached with [] => [] | _ => [with_start (str "CachedFaceId") (content_tag cached)] end).
Definition font_wants := wants CTag ["Family"]%string ++ wants CWeight ["Weight"]%string ++ wants CStyle ["Style"]%string.
Lemma start_content start s : t_start (settled (with_start start (content_tag s))) = start.
Proof. now destruct s. Qed.
Lemma attr_content start s : t_attr (settled (with_start start (content_tag s))) = [].
Proof. now destruct s. Qed.
Lemma font_weight w : (w < 2 ^ 16)%N -> ParseInt 16 (FormatInt (Z.of_N w)) = if (w <? 2 ^ 15)%N then PVal (Z.of_N w) else PRange (2 ^ 15 - 1)%Z.
Proof.
  intros Hw. destruct (ParseInt_Format 16 (Z.of_N w) ltac:(lia)) as [H1 H2]. unfold in_range, clamp in *. change (16 - 1)%N with 15%N in *.
  destruct (N.ltb_spec w (2 ^ 15)) as [H|H].
  - apply H1. lia.
  - rewrite H2 by lia. f_equal. lia.
Qed.
Lemma font_cached family w style cached :
  getFrom fl (wants CTag ["CachedFaceId"]%string) (settled (font_out family w style cached)) =
  match cached with [] => (false, []) | _ => (true, [(str "CachedFaceId", VT (settled (with_start (str "CachedFaceId") (content_tag cached))))]) end.
Proof.
  unfold getFrom, font_out. cbn [settled node map app t_tags].
  rewrite (getFrom_skip fl) by (rewrite start_content; reflexivity). skip. skip. destruct cached as [|c cs]; reflexivity.
Qed.
Lemma font_comps family w style cached : (w < 2 ^ 16)%N ->
  getFrom fl font_wants (settled (font_out family w style cached)) =
  let fam := (str "Family", VT (settled (with_start (str "Family") (content_tag family)))) in
  if (w <? 2 ^ 15)%N then
    let wt := (str "Weight", VZ (Z.of_N w)) in
    if (b2N style <=? 1)%N then (true, [(str "Style", VZ (Z.of_N (b2N style))); wt; fam]) else (false, [wt; fam])
  else (true, [(str "Weight", VZ (2 ^ 15 - 1)); fam]).
Proof.
  intros Hw. cbv zeta.
  assert (EF : forall seen vals ts, existsb (bytes_eqb (str "Family")) seen = false ->
     getFrom_loop fl font_wants seen vals (settled (with_start (str "Family") (content_tag family)) :: ts) =
     getFrom_loop fl font_wants (str "Family" :: seen) ((str "Family", VT (settled (with_start (str "Family") (content_tag family)))) :: vals) ts).
  { intros seen vals ts Hs. rewrite (getFrom_step fl) with (k := CTag) (v := VT (settled (with_start (str "Family") (content_tag family))));
      rewrite ?start_content; [reflexivity|reflexivity|exact Hs|constructor]. }
  unfold getFrom, font_out. cbn [settled node map app t_tags]. rewrite EF by reflexivity.
  assert (EC : getContent (settled (int_leaf "Weight" (Z.of_N w))) = FormatInt (Z.of_N w)).
  { cbn [settled int_leaf leaf getContent t_cdata t_text]. apply nl_text_no_cr. apply FormatInt_no_cr. }
  pose proof (font_weight w Hw) as EW.
  destruct (N.ltb_spec w (2 ^ 15)) as [H|H].
  - rewrite (getFrom_step fl) with (k := CWeight) (v := VZ (Z.of_N w)); [|reflexivity|reflexivity|].
    2:{ rewrite EC. generalize (settled (int_leaf "Weight" (Z.of_N w))). intros u.
        replace (VZ (Z.of_N w)) with (VZ (Z.of_N w mod 2 ^ 16)%Z) by (f_equal; apply Z.mod_small; change (2 ^ 16)%Z with (Z.of_N (2 ^ 16)); lia). now apply comp_w. }
    assert (ES : (b2N style = 0 \/ b2N style = 1 \/ 1 < b2N style)%N) by lia. destruct ES as [ES|[ES|ES]].
    + rewrite ES. step ltac:(apply (comp_s fl _ _ 0%N); reflexivity). destruct cached; reflexivity.
    + rewrite ES. step ltac:(apply (comp_s fl _ _ 1%N); reflexivity). destruct cached; reflexivity.
    + unfold fontstyle_string. replace (b2N style =? 0)%N with false by (symmetry; apply N.eqb_neq; lia). replace (b2N style =? 1)%N with false by (symmetry; apply N.eqb_neq; lia).
      replace (b2N style <=? 1)%N with false by (symmetry; apply N.leb_gt; lia). reflexivity.
  - cbn [getFrom_loop].
    change (mfind font_wants (t_start (settled (int_leaf "Weight" (Z.of_N w))))) with (Some CWeight).
    change (existsb (bytes_eqb (t_start (settled (int_leaf "Weight" (Z.of_N w))))) [str "Family"]) with false. cbv iota zeta beta. rewrite EC, EW. reflexivity.
Qed.
Lemma back_font family w style cached : (w < 2 ^ 16)%N -> back (RFont family w style cached) (font_out family w style cached).
Proof.
  intros Hw. split; [destruct family, cached; unfold fontstyle_string; now destruct (b2N style =? 0)%N, (b2N style =? 1)%N|]. split; [reflexivity|].
  exists TypeFont. split; [reflexivity|].
  unfold getValue, xml_value_or, xml_value; cbv zeta; fold fl; pick. fold font_wants. rewrite font_cached, font_comps by exact Hw. cbv zeta.
  destruct (w <? 2 ^ 15)%N; [destruct (b2N style <=? 1)%N|].
  - cbv iota. cbn [negb].
    change (vt _ "Family") with (Some (settled (with_start (str "Family") (content_tag family)))). cbv iota. rewrite get_content_tag.
    change (vz _ "Weight") with (Z.of_N w). change (vz _ "Style") with (Z.of_N (b2N style)). rewrite !N2Z.id, N2b_b2N.
    destruct cached as [|c cs]; [reflexivity|]. cbv iota. change (vt _ "CachedFaceId") with (Some (settled (with_start (str "CachedFaceId") (content_tag (c :: cs))))).
    cbv iota. rewrite get_content_tag. reflexivity.
  - reflexivity.
  - cbv iota. cbn [negb].
    change (vt _ "Family") with (Some (settled (with_start (str "Family") (content_tag family)))). cbv iota. rewrite get_content_tag.
    change (vz _ "Weight") with (2 ^ 15 - 1)%Z. change (vz _ "Style") with 0%Z.
    destruct cached as [|c cs]; [reflexivity|]. cbv iota. change (vt _ "CachedFaceId") with (Some (settled (with_start (str "CachedFaceId") (content_tag (c :: cs))))).
    cbv iota. rewrite get_content_tag. reflexivity.
Qed.

Theorem value_back rnd v s : wf_rvalue v -> enclosed v = true -> plain v ->
  exists t, encodeProperty env rnd v s = OK (t, s) /\ back v t.
Proof.
  intros Hw He Hp. destruct v; cbn [wf_rvalue] in Hw; try contradiction; cbn [encodeProperty]; fold fl.
  - eexists. split; [reflexivity|]. apply back_string.
  - destruct (b64_lines_ok s0) as (t & E & Ht). rewrite E. cbn [obind]. eexists. split; [reflexivity|].
    rewrite content_leaf_plain by apply Ht. now apply back_binary.
  - eexists. split; [reflexivity|]. apply back_protected. cbn in He. now destruct (has_cdata_end s0).
  - eexists. split; [reflexivity|]. apply back_content.
  - eexists. split; [reflexivity|]. apply back_bool.
  - eexists. split; [reflexivity|]. now apply back_int.
  - rewrite float_leaf_ok by exact Hw. eexists. split; [reflexivity|]. now apply back_float.
  - eexists. split; [reflexivity|]. now apply back_double.
  - rewrite float_leaf_ok by apply Hw. eexists. split; [reflexivity|]. now apply back_udim.
  - rewrite !float_leaf_ok by apply Hw. eexists. split; [reflexivity|]. now apply back_udim2.
  - destruct Hw. rewrite !vec3_node_ok by assumption. eexists. split; [reflexivity|]. now apply back_ray.
  - eexists. split; [reflexivity|]. apply back_faces.
  - eexists. split; [reflexivity|]. apply back_axes.
  - eexists. split; [reflexivity|]. apply back_brickcolor.
  - destruct Hw as (H1 & H2 & H3). rewrite floats_node_ok by (repeat (constructor; [assumption|]); constructor). eexists. split; [reflexivity|]. now apply back_color3.
  - destruct Hw as (H1 & H2). rewrite floats_node_ok by (repeat (constructor; [assumption|]); constructor). eexists. split; [reflexivity|]. now apply back_vector2.
  - rewrite vec3_node_ok by exact Hw. eexists. split; [reflexivity|]. now apply back_vector3.
  - destruct Hw as (H1 & H2 & H3). rewrite cframe_ok by assumption. eexists. split; [reflexivity|]. now apply back_cframe.
  - eexists. split; [reflexivity|]. apply back_token.
  - eexists. split; [reflexivity|]. now apply back_v3i.
  - eexists. split; [reflexivity|]. now apply back_v2i.
  - destruct Hw as (_ & Hw). rewrite prec6_ok. 2:{ apply (flat_f32 ns_floats). eapply Forall_impl; [|exact Hw]. intros k (? & ? & ?). now repeat (constructor; [assumption|]). }
    eexists. split; [reflexivity|]. now apply back_nseq.
  - destruct Hw as (_ & Hw). rewrite prec6_ok. 2:{ apply (flat_f32 cs_floats). eapply Forall_impl; [|exact Hw]. intros k (? & ? & ? & ? & ?). now repeat (constructor; [assumption|]). }
    eexists. split; [reflexivity|]. now apply back_cseq.
  - destruct Hw. rewrite prec6_ok by (repeat (constructor; [assumption|]); constructor). eexists. split; [reflexivity|]. now apply back_range.
  - destruct Hw as (H1 & H2 & H3 & H4). rewrite !floats_node_ok by (repeat (constructor; [assumption|]); constructor). eexists. split; [reflexivity|]. now apply back_rect.
  - destruct custom; [|eexists; split; [reflexivity|]; apply back_phys_none]. destruct Hw as (H1 & H2 & H3 & H4 & H5).
    cbn [all_ok fst snd]. rewrite (proj1 (ftext9 _ H1)), (proj1 (ftext9 _ H2)), (proj1 (ftext9 _ H3)), (proj1 (ftext9 _ H4)), (proj1 (ftext9 _ H5)). cbn [obind].
    eexists. split; [reflexivity|]. now apply back_phys.
  - eexists. split; [reflexivity|]. apply back_color3uint8.
  - eexists. split; [reflexivity|]. now apply back_int64.
  - eexists. split; [reflexivity|]. now apply back_uniqueid.
  - eexists. split; [reflexivity|]. now apply back_font.
Qed.
End Values.
