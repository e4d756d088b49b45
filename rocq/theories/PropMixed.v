(** PropMixed.v - declared values of which some are of another kind than the
    comment on Property asks for (C96). *)
From Coq Require Import QArith.
From Verif Require Import Base RbxlValues RbxValues Tree SpecTree Ieee Declare SpecDeclare DeclareNumbers DeclareProofs DeclareTree PropDeclare.
Local Open Scope nat_scope.

(** ** Specification *)

(** One value: what a number becomes, and zero for what is not a number. *)
Definition or_zero {A} (becomes : dval -> A -> Prop) (zero : A) (a : dval) (x : A) : Prop := becomes a x \/ (~ number a /\ x = zero).
Definition single0 : dval -> N -> Prop := or_zero single 0%N.
Definition signed0 (n : Z) : dval -> Z -> Prop := or_zero (signed n) 0%Z.
Definition unsigned0 (n : Z) : dval -> Z -> Prop := or_zero (unsigned n) 0%Z.
(** One value: the x that [mk] wraps, and zero for anything else. *)
Definition made {A} (mk : A -> dval) (zero : A) (a : dval) (x : A) : Prop := a = mk x \/ ((forall y, a <> mk y) /\ x = zero).
Definition bool0 : dval -> bool -> Prop := made DBool false.
Definition udim0 : dval -> N * Z -> Prop := made (fun u => DValue (RUDim (fst u) (snd u))) (0%N, 0%Z).
Definition vec0 : dval -> vec3 -> Prop := made (fun v => DValue (RVector3 v)) (Vec3 0 0 0).
Definition corner0 : dval -> N * N -> Prop := made (fun c => DValue (RVector2 (fst c) (snd c))) (0%N, 0%N).
Definition nkey0 : dval -> nskey -> Prop := made DNSKey (NSK 0 0 0).
Definition ckey0 : dval -> cskey -> Prop := made DCSKey (CSK 0 0 0 0 0).
Definition three (a b c : dval) (v : vec3) : Prop := single0 a (v3x v) /\ single0 b (v3y v) /\ single0 c (v3z v).

(** [mixed t vals v]: as many values as type t takes give v, each on its own. *)
Inductive mixed : Type_ -> list dval -> rvalue -> Prop :=
| mx_double a rest : ~ number a -> mixed TypeDouble (a :: rest) (RFloat 0)
| mx_udim a b s o : single0 a s -> signed0 32 b o -> mixed TypeUDim [a; b] (RUDim s o)
| mx_udim2 a b x y : udim0 a x -> udim0 b y -> mixed TypeUDim2 [a; b] (RUDim2 (fst x) (snd x) (fst y) (snd y))
| mx_udim2_numbers a b c d xs xo ys yo : single0 a xs -> signed0 32 b xo -> single0 c ys -> signed0 32 d yo ->
    mixed TypeUDim2 [a; b; c; d] (RUDim2 xs xo ys yo)
| mx_ray a b o d : vec0 a o -> vec0 b d -> mixed TypeRay [a; b] (RRay o d)
| mx_ray_numbers a b c d e g o dir : three a b c o -> three d e g dir -> mixed TypeRay [a; b; c; d; e; g] (RRay o dir)
| mx_faces a b c d e g r t ba l bo f : bool0 a r -> bool0 b t -> bool0 c ba -> bool0 d l -> bool0 e bo -> bool0 g f ->
    mixed TypeFaces [a; b; c; d; e; g] (RFaces r t ba l bo f)
| mx_axes a b c x y z : bool0 a x -> bool0 b y -> bool0 c z -> mixed TypeAxes [a; b; c] (RAxes x y z)
| mx_color3 a b c r g bl : single0 a r -> single0 b g -> single0 c bl -> mixed TypeColor3 [a; b; c] (RColor3 r g bl)
| mx_vector2 a b x y : single0 a x -> single0 b y -> mixed TypeVector2 [a; b] (RVector2 x y)
| mx_vector3 a b c v : three a b c v -> mixed TypeVector3 [a; b; c] (RVector3 v)
| mx_vector2int16 a b x y : signed0 16 a x -> signed0 16 b y -> mixed TypeVector2int16 [a; b] (RVector2int16 x y)
| mx_vector3int16 a b c x y z : signed0 16 a x -> signed0 16 b y -> signed0 16 c z -> mixed TypeVector3int16 [a; b; c] (RVector3int16 x y z)
(* Of ten values the first is also the first number of the rotation, and the
   last is not used. *)
| mx_cframe a l last p rot : length l = 8 -> vec0 a p -> Forall2 single0 (a :: l) rot -> mixed TypeCFrame (a :: l ++ [last]) (RCFrame p rot)
| mx_cframe_numbers a b c l p rot : length l = 9 -> three a b c p -> Forall2 single0 l rot -> mixed TypeCFrame (a :: b :: c :: l) (RCFrame p rot)
| mx_numbers k l ks : l <> [] -> Forall2 nkey0 l ks -> mixed TypeNumberSequence (DNSKey k :: l) (RNumberSequence (k :: ks))
| mx_colors k l ks : l <> [] -> Forall2 ckey0 l ks -> mixed TypeColorSequence (DCSKey k :: l) (RColorSequence (k :: ks))
| mx_range a b x y : single0 a x -> single0 b y -> mixed TypeNumberRange [a; b] (RNumberRange x y)
(* The second corner is not used. *)
| mx_rect a b c : corner0 a c -> mixed TypeRect [a; b] (RRect (fst c) (snd c) (fst c) (snd c))
| mx_rect_numbers a b c d x y z w : single0 a x -> single0 b y -> single0 c z -> single0 d w -> mixed TypeRect [a; b; c; d] (RRect x y z w)
| mx_physical3 a b c d f e : single0 a d -> single0 b f -> single0 c e -> mixed TypePhysicalProperties [a; b; c] (RPhysicalProperties true d f e 0 0)
| mx_physical5 a b c x y d f e fw ew : single0 a d -> single0 b f -> single0 c e -> single0 x fw -> single0 y ew ->
    mixed TypePhysicalProperties [a; b; c; x; y] (RPhysicalProperties true d f e fw ew)
| mx_color3uint8 a b c r g bl : unsigned0 8 a r -> unsigned0 8 b g -> unsigned0 8 c bl ->
    mixed TypeColor3uint8 [a; b; c] (RColor3uint8 (N2b (Z.to_N r)) (N2b (Z.to_N g)) (N2b (Z.to_N bl))).

(** ** Proofs *)

Section Mixed.
Variable other : format -> Z -> Z -> N -> Z.
Lemma single0_norm a x : single0 a x -> normFloat32 a = x.
Proof. intros [H|[H ->]]; [now apply normFloat32_spec|]. unfold normFloat32. now rewrite norm_other. Qed.
Lemma signed0_32 a x : signed0 32 a x -> normInt32 other a = x.
Proof. intros [H|[H ->]]; [now apply normInt32_spec|]. unfold normInt32. now rewrite norm_other. Qed.
Lemma signed0_16 a x : signed0 16 a x -> normInt16 other a = x.
Proof. intros [H|[H ->]]; [now apply normInt16_spec|]. unfold normInt16. now rewrite norm_other. Qed.
Lemma unsigned0_8 a x : unsigned0 8 a x -> normUint8 other a = N2b (Z.to_N x).
Proof. intros [H|[H ->]]; [now apply normUint8_spec|]. unfold normUint8. now rewrite norm_other. Qed.
Lemma bool0_norm a x : bool0 a x -> normBool a = x.
Proof. intros [->|[H ->]]; [reflexivity|]. destruct a; try reflexivity. now destruct (H b). Qed.
Lemma udim0_as a x : udim0 a x -> as_udim a = x.
Proof. intros [->|[H ->]]; [now destruct x|]. destruct a as [| | | | | |v| | | |]; try reflexivity. destruct v; try reflexivity. now destruct (H (scale, offset)). Qed.
Lemma vec0_as a x : vec0 a x -> as_vec3 a = x.
Proof. intros [->|[H ->]]; [reflexivity|]. destruct a as [| | | | | |v| | | |]; try reflexivity. destruct v; try reflexivity. now destruct (H v). Qed.
Lemma corner0_as a x : corner0 a x -> as_vec2 a = x.
Proof. intros [->|[H ->]]; [now destruct x|]. destruct a as [| | | | | |v| | | |]; try reflexivity. destruct v; try reflexivity. now destruct (H (x, y)). Qed.
Lemma nkey0_as a x : nkey0 a x -> as_nskey a = x.
Proof. intros [->|[H ->]]; [reflexivity|]. destruct a; try reflexivity. now destruct (H k). Qed.
Lemma ckey0_as a x : ckey0 a x -> as_cskey a = x.
Proof. intros [->|[H ->]]; [reflexivity|]. destruct a; try reflexivity. now destruct (H k). Qed.
Lemma forall2_map {A} (R : dval -> A -> Prop) f l ks : (forall a x, R a x -> f a = x) -> Forall2 R l ks -> map f l = ks.
Proof. intros HR. induction 1 as [|a x l ks H _ IH]; [reflexivity|]. cbn [map]. now rewrite IH, (HR a x H). Qed.
Lemma three_vec a b c v : three a b c v -> Vec3 (normFloat32 a) (normFloat32 b) (normFloat32 c) = v.
Proof. intros (H1 & H2 & H3). destruct v as [x y z]. apply single0_norm in H1, H2, H3. cbn [v3x v3y v3z] in *. congruence. Qed.

Ltac norms := repeat match goal with
  | H : single0 _ _ |- _ => apply single0_norm in H
  | H : signed0 32 _ _ |- _ => apply signed0_32 in H
  | H : signed0 16 _ _ |- _ => apply signed0_16 in H
  | H : unsigned0 8 _ _ |- _ => apply unsigned0_8 in H
  | H : bool0 _ _ |- _ => apply bool0_norm in H
  | H : udim0 _ _ |- _ => apply udim0_as in H
  | H : vec0 _ _ |- _ => apply vec0_as in H
  | H : corner0 _ _ |- _ => apply corner0_as in H
  | H : three _ _ _ _ |- _ => apply three_vec in H
  end.
Lemma value_mixed t refs vals v : mixed t vals v -> (forall a, hd_error vals = Some a -> ~ own t a) -> d_value other t refs vals = OK (Some v).
Proof.
  intros H Ho.
  assert (Ha : match vals with [] => True | a :: _ => assertValue t a = None end) by (destruct vals; [exact I|]; apply not_own; now apply Ho).
  clear Ho. destruct H; norms;
    try (unfold d_value; rewrite Ha; subst; reflexivity).
  - unfold d_value. rewrite Ha. cbn [N.eqb Pos.eqb]. unfold normFloat64. rewrite norm_other by assumption. reflexivity.
  - pose proof (forall2_map _ _ _ _ single0_norm H1) as E. clear H1. do 8 (destruct l as [|? l]; [discriminate H|]). destruct l; [|discriminate H].
    unfold d_value. cbn [app]. rewrite Ha. cbn [map] in E. subst. reflexivity.
  - pose proof (forall2_map _ _ _ _ single0_norm H1) as E. clear H1. do 9 (destruct l as [|? l]; [discriminate H|]). destruct l; [|discriminate H].
    unfold d_value. rewrite Ha. cbn [map] in E. subst. reflexivity.
  - pose proof (forall2_map _ _ _ _ nkey0_as H0) as E. clear H0. destruct l as [|b l]; [now destruct H|]. unfold d_value. rewrite Ha, <- E. reflexivity.
  - pose proof (forall2_map _ _ _ _ ckey0_as H0) as E. clear H0. destruct l as [|b l]; [now destruct H|]. unfold d_value. rewrite Ha, <- E. reflexivity.
  - unfold d_value. rewrite Ha. cbn [N.eqb Pos.eqb]. rewrite <- H, <- H0, <- H1. reflexivity.
Qed.
End Mixed.

(** ** C96 *)

Theorem C96_mixed : forall other name t a rest v, mixed t (a :: rest) v -> ~ own t a ->
  Property_Declare other (DProp name t (a :: rest)) = OK (Some v).
Proof. intros other name t a rest v H Ho. apply value_mixed; [exact H|]. intros b E. injection E as <-. exact Ho. Qed.
(** In a tree. *)
Theorem C96_tree : forall other h ds ts h' k d p name x a rest v,
  declared other h ds ts h' -> nth_error (all_nodes ds) k = Some d -> nth_error (fnodes ts) k = Some p ->
  last_prop (d_props d) name = Some x -> dp_vals x = a :: rest -> mixed (dp_type x) (a :: rest) v -> ~ own (dp_type x) a ->
  exists i, hget h' p = Some i /\ mfind (i_props i) name = Some v.
Proof.
  intros other h ds ts h' k d p name x a rest v D Hd Hp Hx Hl Hv Ho. destruct D as [_ _ _ _ _ (refs & _ & Hi)].
  destruct (Hi k d p Hd Hp) as (i & Ei & C & R & _ & _ & Hm). exists i. split; [exact Ei|]. rewrite Hm, Hx, Hl.
  rewrite (value_mixed other _ refs _ v Hv); [reflexivity|]. intros b E. injection E as <-. exact Ho.
Qed.
(** With no numbers at all but the right count: the zero value, except of
    PhysicalProperties, whose custom flag is set, and of CFrame, whose rotation
    is zero and not the identity. *)
Theorem C96_no_numbers : forall other name t vals, Forall (fun a => ~ number a /\ forall v, a <> DValue v) vals -> Forall (fun a => forall b, a <> DBool b) vals ->
  (In (t, length vals) [(TypeUDim, 2); (TypeUDim2, 2); (TypeUDim2, 4); (TypeRay, 2); (TypeRay, 6); (TypeFaces, 6); (TypeAxes, 3); (TypeColor3, 3); (TypeVector2, 2);
     (TypeVector3, 3); (TypeVector2int16, 2); (TypeVector3int16, 3); (TypeNumberRange, 2); (TypeRect, 2); (TypeRect, 4); (TypeColor3uint8, 3)] ->
   Property_Declare other (DProp name t vals) = OK (NewValue t)) /\
  (In (t, length vals) [(TypePhysicalProperties, 3); (TypePhysicalProperties, 5)] ->
   Property_Declare other (DProp name t vals) = OK (Some (RPhysicalProperties true 0 0 0 0 0)) /\ NewValue t = Some (RPhysicalProperties false 0 0 0 0 0)) /\
  (In (t, length vals) [(TypeCFrame, 10); (TypeCFrame, 12)] ->
   Property_Declare other (DProp name t vals) = OK (Some (RCFrame (Vec3 0 0 0) (repeat 0%N 9))) /\
   NewValue t = Some (RCFrame (Vec3 0 0 0) [0x3f800000; 0; 0; 0; 0x3f800000; 0; 0; 0; 0x3f800000]%N)).
Proof.
  intros other name t vals Hv Hb.
  assert (S0 : forall a, In a vals -> single0 a 0%N) by (intros a Ha; right; split; [|reflexivity]; rewrite Forall_forall in Hv; apply (Hv a Ha)).
  assert (I0 : forall n a, In a vals -> signed0 n a 0%Z) by (intros n a Ha; right; split; [|reflexivity]; rewrite Forall_forall in Hv; apply (Hv a Ha)).
  assert (U0 : forall n a, In a vals -> unsigned0 n a 0%Z) by (intros n a Ha; right; split; [|reflexivity]; rewrite Forall_forall in Hv; apply (Hv a Ha)).
  assert (B0 : forall a, In a vals -> bool0 a false) by (intros a Ha; right; split; [|reflexivity]; rewrite Forall_forall in Hb; apply (Hb a Ha)).
  assert (D0 : forall a, In a vals -> udim0 a (0%N, 0%Z)) by (intros a Ha; right; split; [|reflexivity]; intros y; rewrite Forall_forall in Hv; apply (Hv a Ha)).
  assert (V0 : forall a, In a vals -> vec0 a (Vec3 0 0 0)) by (intros a Ha; right; split; [|reflexivity]; intros y; rewrite Forall_forall in Hv; apply (Hv a Ha)).
  assert (C0 : forall a, In a vals -> corner0 a (0%N, 0%N)) by (intros a Ha; right; split; [|reflexivity]; intros y; rewrite Forall_forall in Hv; apply (Hv a Ha)).
  assert (O0 : forall a, hd_error vals = Some a -> ~ own t a).
  { intros a Ha (v & -> & _). destruct vals as [|x l]; [discriminate Ha|]. cbn in Ha. inversion Hv as [|? ? [_ Hx] _]; subst. apply (Hx v). congruence. }
  assert (G : forall v, mixed t vals v -> Property_Declare other (DProp name t vals) = OK (Some v)) by (intros v H; now apply value_mixed).
  assert (T0 : forall a b c, In a vals -> In b vals -> In c vals -> three a b c (Vec3 0 0 0)) by (intros; repeat split; auto).
  split; [|split]; intros Hin; cbn [In] in Hin;
    repeat (destruct Hin as [Hin|Hin]; [injection Hin as <- Hn|]); try contradiction;
    repeat (destruct vals as [|? vals]; [discriminate Hn|]; try (cbn [length] in Hn; apply eq_add_S in Hn)); (destruct vals; [|discriminate Hn]).
  all: try (split; [|reflexivity]).
  all: try (apply G; solve [constructor; auto 20 with datatypes]).
  1: apply (G (RUDim2 0 0 0 0)); apply (mx_udim2 _ _ (0%N, 0%Z) (0%N, 0%Z)); auto with datatypes.
  - apply (G (RRect 0 0 0 0)). apply (mx_rect _ _ (0%N, 0%N)). auto with datatypes.
  - apply (G (RColor3uint8 (N2b (Z.to_N 0)) (N2b (Z.to_N 0)) (N2b (Z.to_N 0)))). constructor; auto with datatypes.
  - apply G. match goal with |- mixed _ [?a; ?b; ?c; ?d; ?e; ?f; ?g; ?h; ?i; ?j] _ => change [a; b; c; d; e; f; g; h; i; j] with (a :: [b; c; d; e; f; g; h; i] ++ [j]) end.
    apply mx_cframe; [reflexivity|auto with datatypes|]. cbn [repeat]. repeat (apply Forall2_cons; [apply S0; cbn; tauto|]). constructor.
  - apply G. apply mx_cframe_numbers; [reflexivity|auto with datatypes|]. cbn [repeat]. repeat (apply Forall2_cons; [apply S0; cbn; tauto|]). constructor.
Qed.
(** Nothing else can be declared: by C68, C69 and this, the value of every
    declaration of numbers that have a value in each field is known. *)
Definition usable (a : dval) : Prop :=
  (exists x, single0 a x) /\ (exists z, signed0 16 a z) /\ (exists z, signed0 32 a z) /\ (exists z, signed0 64 a z) /\
  (exists z, unsigned0 8 a z) /\ (exists z, unsigned0 32 a z) /\ (number a -> exists x y, double a x /\ single (DFloat64 x) y).
Theorem C96_covers : forall t a rest, In t declared_types -> Forall usable (a :: rest) ->
  own t a \/ unaccepted t a rest \/ (exists v, mixed t (a :: rest) v) \/
  (exists v, documented no_label t (a :: rest) v /\ as_documented t (a :: rest)) \/ (exists o, astray no_label t (a :: rest) o).
Proof.
  intros t a rest Ht HU.
  assert (SU : forall b, In b (a :: rest) -> exists x, single0 b x) by (intros b Hb; rewrite Forall_forall in HU; apply (HU b Hb)).
  assert (IU : forall b, In b (a :: rest) -> exists x, signed0 32 b x) by (intros b Hb; rewrite Forall_forall in HU; apply (HU b Hb)).
  assert (HU16 : forall b, In b (a :: rest) -> exists x, signed0 16 b x) by (intros b Hb; rewrite Forall_forall in HU; apply (HU b Hb)).
  assert (HU8 : forall b, In b (a :: rest) -> exists x, unsigned0 8 b x) by (intros b Hb; rewrite Forall_forall in HU; apply (HU b Hb)).
  assert (BU : forall b, exists x, bool0 b x) by (intros b; destruct b; try (exists false; right; split; [discriminate|reflexivity]); eexists; now left).
  assert (DU : forall b, exists x, udim0 b x).
  { intros b. destruct b as [| | | | | |v| | | |]; try (exists (0%N, 0%Z); right; split; [discriminate|reflexivity]).
    destruct v; try (exists (0%N, 0%Z); right; split; [discriminate|reflexivity]). eexists (_, _). now left. }
  assert (VU : forall b, exists x, vec0 b x).
  { intros b. destruct b as [| | | | | |v| | | |]; try (exists (Vec3 0 0 0); right; split; [discriminate|reflexivity]).
    destruct v; try (exists (Vec3 0 0 0); right; split; [discriminate|reflexivity]). eexists. now left. }
  assert (CU : forall b, exists x, corner0 b x).
  { intros b. destruct b as [| | | | | |v| | | |]; try (exists (0%N, 0%N); right; split; [discriminate|reflexivity]).
    destruct v; try (exists (0%N, 0%N); right; split; [discriminate|reflexivity]). eexists (_, _). now left. }
  assert (NU : forall b, exists x, nkey0 b x) by (intros b; destruct b; try (exists (NSK 0 0 0); right; split; [discriminate|reflexivity]); eexists; now left).
  assert (KU : forall b, exists x, ckey0 b x) by (intros b; destruct b; try (exists (CSK 0 0 0 0 0); right; split; [discriminate|reflexivity]); eexists; now left).
  assert (F2 : forall A (R : dval -> A -> Prop) l, (forall b, In b l -> exists x, R b x) -> exists xs, Forall2 R l xs).
  { intros A R l. induction l as [|b l IH]; intros H; [exists []; constructor|]. destruct (H b) as [x Hx]; [now left|]. destruct IH as [xs Hxs]; [intros c Hc; apply H; now right|].
    exists (x :: xs). now constructor. }
  assert (TU : forall b c d, In b (a :: rest) -> In c (a :: rest) -> In d (a :: rest) -> exists v, three b c d v).
  { intros b c d H1 H2 H3. destruct (SU b H1) as [x X], (SU c H2) as [y Y], (SU d H3) as [z Z]. exists (Vec3 x y z). now repeat split. }
  assert (AD : ~ In t [TypeBinaryString; TypeProtectedString; TypeContent; TypeDouble; TypeCFrame; TypeRect; TypeNumberSequence; TypeColorSequence] -> as_documented t (a :: rest)).
  { intros H. right. right. split; [intros X; apply H; cbn [In] in *; tauto|]. repeat split; intros ->; exfalso; apply H; cbn; tauto. }
  assert (TX : (exists s, text a s) \/ forall s, ~ text a s) by (destruct a; try (right; intros s X; inversion X; fail); left; eexists; constructor).
  assert (CN : forall ns, assocN counts t = Some ns -> In (S (length rest)) ns \/ unaccepted t a rest).
  { intros ns E. destruct (in_dec Nat.eq_dec (S (length rest)) ns) as [H|H]; [now left|right; eapply un_count; eassumption]. }
  assert (HL : forall n, S (length rest) = S n -> length rest = n) by (intros n E; now injection E).
  rewrite Forall_forall in HU. destruct (HU a (or_introl eq_refl)) as (_ & _ & [z32 Z32] & [z64 Z64] & _ & [u32 U32] & HD). clear HU.
  vm_compute in Ht.
  assert (T3 : forall b c d x y z, single0 b x -> single0 c y -> single0 d z -> three b c d (Vec3 x y z)) by (intros; now repeat split).
  assert (NM : forall b, number b \/ ~ number b) by (intros b; destruct b; (now left) || (right; exact (fun x => x))).
  assert (NZ : forall A (R : dval -> A -> Prop) (z : A) b x, or_zero R z b x -> number b -> R b x) by (intros A R z b x [H|[H _]] Hn; [exact H|contradiction]).
  Ltac notin := let Y := fresh in intros Y; cbn [In] in Y; repeat (destruct Y as [Y|Y]; [discriminate Y|]); exact Y.
  Ltac member := cbn [In]; repeat first [left; reflexivity | right].
  Ltac wit SU IU HU16 HU8 BU DU VU CU b :=
    destruct (SU b ltac:(member)) as [? ?], (IU b ltac:(member)) as [? ?], (HU16 b ltac:(member)) as [? ?], (HU8 b ltac:(member)) as [? ?],
      (BU b) as [? ?], (DU b) as [? ?], (VU b) as [? ?], (CU b) as [? ?].
  Ltac shorten rest Hn := repeat (destruct rest as [|? rest]; [discriminate Hn|]; cbn [length] in Hn; apply eq_add_S in Hn); destruct rest; [|discriminate Hn].
  Ltac fields SU IU HU16 HU8 BU DU VU CU :=
    lazymatch goal with |- exists v, mixed _ ?l v => let rec go l := lazymatch l with ?b :: ?l' => wit SU IU HU16 HU8 BU DU VU CU b; go l' | _ => idtac end in go l end.
  assert (ND : NoDup (map fst counts)) by (vm_compute; repeat constructor; notin).
  destruct (assocN counts t) as [ns|] eqn:EC.
  - destruct (CN ns eq_refl) as [Hn|Hn]; [|now auto]. clear CN. right. right. left.
    repeat (destruct Ht as [<-|Ht]; [vm_compute in EC; try discriminate EC; injection EC as <-; cbn [In] in Hn; repeat (destruct Hn as [Hn|Hn]; [|]); try contradiction|]); try contradiction.
    all: apply eq_add_S in Hn; symmetry in Hn.
    all: try (lazymatch goal with |- exists v, mixed 18%N _ v => fail | _ => idtac end; shorten rest Hn; fields SU IU HU16 HU8 BU DU VU CU;
      clear SU IU HU16 HU8 BU DU VU CU NU KU F2 TU AD NM NZ; solve [eexists; econstructor; first [eassumption | apply T3; eassumption]]).
    + shorten rest Hn. destruct (VU a) as [p Hp]. match goal with |- exists v, mixed _ [_; ?b; ?c; ?d; ?e; ?f; ?g; ?h; ?i; ?j] v => destruct (F2 _ single0 [a; b; c; d; e; f; g; h; i]) as [rot Hr] end.
      { intros x Hx. apply SU. clear - Hx. cbn [In] in *. intuition. }
      exists (RCFrame p rot). match goal with |- mixed _ [?a; ?b; ?c; ?d; ?e; ?f; ?g; ?h; ?i; ?j] _ => apply (mx_cframe a [b; c; d; e; f; g; h; i] j) end; [reflexivity|exact Hp|exact Hr].
    + destruct rest as [|b [|c l]]; try discriminate Hn. destruct (TU a b c) as [p Hp]; try (cbn; tauto). destruct (F2 _ single0 l) as [rot Hr].
      { intros x Hx. apply SU. right. right. now right. }
      exists (RCFrame p rot). apply mx_cframe_numbers; [cbn in Hn; lia|exact Hp|exact Hr].
  - clear CN.
    repeat (destruct Ht as [<-|Ht]; [try discriminate EC|]); try contradiction; clear EC.
    + destruct TX as [[s X]|X]; [|right; left; apply un_text; [cbn; tauto|exact X]]. do 3 right. left. exists (RString s). split; [now apply dc_string|apply AD; notin].
    + destruct TX as [[s X]|X]; [|right; left; apply un_text; [cbn; tauto|exact X]]. do 4 right. eexists. apply as_text; [cbn; tauto|exact X].
    + destruct TX as [[s X]|X]; [|right; left; apply un_text; [cbn; tauto|exact X]]. do 4 right. eexists. apply as_text; [cbn; tauto|exact X].
    + destruct TX as [[s X]|X]; [|right; left; apply un_text; [cbn; tauto|exact X]]. do 4 right. eexists. apply as_text; [cbn; tauto|exact X].
    + destruct a; try (right; left; apply un_bool; discriminate). do 3 right. left. eexists. split; [constructor|apply AD; notin].
    + destruct (NM a) as [X|X]; [|right; left; apply un_number; [cbn; tauto|exact X]]. do 3 right. left. eexists. split; [apply dc_int; exact (NZ _ _ _ _ _ Z32 X)|apply AD; notin].
    + destruct (NM a) as [X|X]; [|right; left; apply un_number; [cbn; tauto|exact X]]. do 3 right. left. destruct (SU a (or_introl eq_refl)) as [x Hx].
      eexists. split; [apply dc_float; exact (NZ _ _ _ _ _ Hx X)|apply AD; notin].
    + destruct (NM a) as [X|X]; [|right; right; left; exists (RFloat 0); now constructor]. destruct (HD X) as (x & y & H1 & H2). do 4 right. eexists. eapply as_double; eassumption.
    + destruct (NM a) as [X|X]; [|right; left; apply un_number; [cbn; tauto|exact X]]. do 3 right. left. eexists. split; [apply dc_brick; exact (NZ _ _ _ _ _ U32 X)|apply AD; notin].
    + destruct (NM a) as [X|X]; [|right; left; apply un_number; [cbn; tauto|exact X]]. do 3 right. left. eexists. split; [apply dc_token; exact (NZ _ _ _ _ _ U32 X)|apply AD; notin].
    + destruct TX as [[s X]|X].
      * do 3 right. left. exists (RReference 0). split; [eapply dc_reference; [exact X|reflexivity]|apply AD; notin].
      * destruct a; try (right; left; apply un_reference; [exact X|discriminate]). do 3 right. left. eexists. split; [apply dc_instance|apply AD; notin].
    + destruct a as [| | | | | | |k| | |]; try (right; left; apply un_numbers; left; discriminate). destruct rest as [|b l]; [right; left; apply un_numbers; now right|].
      right. right. left. destruct (F2 _ nkey0 (b :: l)) as [ks H]; [intros; apply NU|]. exists (RNumberSequence (k :: ks)). now apply mx_numbers.
    + destruct rest as [|b l].
      * destruct a as [| | | | | |v| |k| |]; try (do 4 right; exists None; apply as_panic; discriminate). destruct v; try (do 4 right; exists None; apply as_panic; discriminate).
        left. eexists. now split.
      * destruct a as [| | | | | | | |k| |]; try (right; left; apply un_colors; discriminate).
        right. right. left. destruct (F2 _ ckey0 (b :: l)) as [ks H]; [intros; apply KU|]. exists (RColorSequence (k :: ks)). now apply mx_colors.
    + destruct (NM a) as [X|X]; [|right; left; apply un_number; [cbn; tauto|exact X]]. do 3 right. left. eexists. split; [apply dc_int64; exact (NZ _ _ _ _ _ Z64 X)|apply AD; notin].
    + destruct TX as [[s X]|X]; [|right; left; apply un_text; [cbn; tauto|exact X]]. do 3 right. left. exists (RSharedString s). split; [now apply dc_shared|apply AD; notin].
Qed.
(** Whatever is not a number can be used, and every integer. *)
Theorem C96_usable : (forall a, ~ number a -> usable a) /\ (forall k z, usable (DInt k z)).
Proof.
  split.
  - intros a H. unfold usable, single0, signed0, unsigned0, or_zero. repeat apply conj; try (eexists; right; split; [exact H|reflexivity]). intros X. contradiction.
  - intros k z. assert (W : forall lo n, (0 <= n)%Z -> exists z', whole lo n (DInt k z) z') by (intros lo n Hn; now apply (C70_integer_total lo n (DInt k z) (inject_Z z) 0%Z)).
    destruct (single_total (DInt k z) I I I) as [g Hg].
    repeat apply conj; try (destruct (W (- 2 ^ (16 - 1))%Z 16%Z ltac:(lia)) as [x Hx]; exists x; left; exact Hx);
      try (destruct (W (- 2 ^ (32 - 1))%Z 32%Z ltac:(lia)) as [x Hx]; exists x; left; exact Hx); try (destruct (W (- 2 ^ (64 - 1))%Z 64%Z ltac:(lia)) as [x Hx]; exists x; left; exact Hx);
      try (destruct (W 0%Z 8%Z ltac:(lia)) as [x Hx]; exists x; left; exact Hx); try (destruct (W 0%Z 32%Z ltac:(lia)) as [x Hx]; exists x; left; exact Hx).
    + exists g. now left.
    + intros _. destruct (double_total (DInt k z) I I I) as [x Hx]. assert (Hd : f_word F64 x /\ f_isnan F64 x = false) by (inversion Hx; subst; eapply nearest_not_nan; [exact F64_ok|eassumption]).
      destruct (single_total (DFloat64 x) I (proj1 Hd) (proj2 Hd)) as [y Hy]. eauto.
Qed.
(** A UDim whose scale is text, a Ray to a place that is no Vector3, a sequence
    with a stray number, the axes with a number among them. *)
Theorem C96_witness : forall other name,
  mixed TypeUDim [DString (str "1"%string); DInt Kint 5] (RUDim 0 5) /\ ~ own TypeUDim (DString (str "1"%string)) /\
  mixed TypeRay [DValue (RVector3 (Vec3 f1 f2 f1)); DValue (RVector2 f1 f1)] (RRay (Vec3 f1 f2 f1) (Vec3 0 0 0)) /\
  mixed TypeNumberSequence [DNSKey (NSK 0 f1 f2); DFloat32 f1] (RNumberSequence [NSK 0 f1 f2; NSK 0 0 0]) /\
  mixed TypeAxes [DBool true; DInt Kint 1; DBool true] (RAxes true false true) /\
  Property_Declare other (DProp name TypeAxes [DBool true; DInt Kint 1; DBool true]) = OK (Some (RAxes true false true)) /\
  Property_Declare other (DProp name TypeDouble [DBool true]) = OK (Some (RFloat 0)).
Proof.
  intros other name. split; [|split; [|split; [|split; [|split; [|split; reflexivity]]]]].
  - apply mx_udim; [right; split; [intros []|reflexivity]|]. left. apply wh_int; [split; [discriminate|reflexivity]|reflexivity].
  - intros (v & E & _). discriminate E.
  - apply mx_ray; [now left|]. right. split; [discriminate|reflexivity].
  - apply mx_numbers; [discriminate|]. constructor; [|constructor]. right. split; [discriminate|reflexivity].
  - apply mx_axes; [now left| |now left]. right. split; [discriminate|reflexivity].
Qed.
