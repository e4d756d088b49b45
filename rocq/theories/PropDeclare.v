(** PropDeclare.v - declarations of trees and values (C67-C71). *)
From Coq Require Import QArith Qabs Lqa Permutation.
From Verif Require Import Base RbxlValues RbxValues Tree SpecTree SpecValues Ieee Declare SpecDeclare TreeProofs IeeeNearest DeclareNumbers DeclareProofs DeclareTree RbxlFileProofs.
Local Notation string := String.string.
Local Open Scope nat_scope.

(** ** C67: a declaration makes exactly the tree it describes *)

Definition no_explosion (ds : list dinst) : Prop := ~ exists d p, In d (all_nodes ds) /\ In p (d_props d) /\ explodes p.

Theorem C67_root : forall other ord l h, any_decls ord -> Forall proper (all_nodes (root_insts l)) -> no_explosion (root_insts l) ->
  exists ts r h', Root_Declare other ord l h = OK (r, h') /\ r_instances r = map rroot ts /\ declared other h (root_insts l) ts h' /\
    NoDup (map fst (r_metadata r)) /\ forall k, mfind (r_metadata r) k = last_meta (root_metas l) k.
Proof.
  intros other ord l h Hord Hp Hne. unfold Root_Declare. rewrite declare_loop_eq. pose proof (build_list_builds (root_insts l) (Bst h [] [])) as HB.
  destruct (build_list (root_insts l) (Bst h [] [])) as [qs s']. cbn [r_instances r_metadata app].
  destruct (finish_ok other h _ qs s' HB ord Hord Hp Hne) as (ts & h' & E & -> & D).
  exists ts, (Root (map rroot ts) (fold_left (fun m kv => mset m (fst kv) (snd kv)) (root_metas l) [])), h'. rewrite E. cbn [obind r_instances r_metadata].
  split; [reflexivity|]. split; [reflexivity|]. split; [exact D|]. split; [apply metas_keys; constructor|].
  intros k. rewrite metas_spec. cbn [mfind]. now destruct (last_meta _ _).
Qed.
Theorem C67_instance : forall other ord d h, any_decls ord -> Forall proper (d_nodes d) -> no_explosion [d] ->
  exists t h', Instance_Declare other ord d h = OK (rroot t, h') /\ declared other h [d] [t] h'.
Proof.
  intros other ord d h Hord Hp Hne. unfold Instance_Declare. pose proof (build_spec d (Bst h [] [])) as HB.
  destruct (build d (Bst h [] [])) as [q s']. assert (Hp' : Forall proper (all_nodes [d])) by (unfold all_nodes; cbn [flat_map]; now rewrite app_nil_r).
  destruct (finish_ok other h _ [q] s' HB ord Hord Hp' Hne) as (ts & h' & E & Q & D).
  destruct ts as [|t [|? ?]]; try discriminate Q. assert (q = rroot t) by (cbn in Q; congruence). subst q. exists t, h'. rewrite E. cbn [obind]. now split.
Qed.
(** In the tree, a property declared as documented (last, among those with its
    name) has the documented value; references are to instances of the tree. *)
Theorem C67_values : forall other h ds ts h' k d p name x v,
  declared other h ds ts h' -> nth_error (all_nodes ds) k = Some d -> nth_error (fnodes ts) k = Some p ->
  last_prop (d_props d) name = Some x -> documented (labelled ds (fnodes ts)) (dp_type x) (dp_vals x) v -> as_documented (dp_type x) (dp_vals x) ->
  exists i, hget h' p = Some i /\ i_class i = d_class d /\ i_ref i = d_ref d /\ mfind (i_props i) name = Some v.
Proof.
  intros other h ds ts h' k d p name x v D Hd Hp Hx Hv Ha. destruct D as [_ _ _ _ _ (refs & Hl & Hi)].
  destruct (Hi k d p Hd Hp) as (i & Ei & C & R & _ & _ & Hm). exists i. split; [exact Ei|]. split; [exact C|]. split; [exact R|]. rewrite Hm, Hx.
  rewrite (value_documented other (labelled ds (fnodes ts)) refs _ _ v); [reflexivity| |exact Hv|exact Ha].
  intros s q Hq. exact (label_fun (all_nodes ds) (fnodes ts) s _ _ (Hl s) Hq).
Qed.
(** A property that is not declared is not there. *)
Theorem C67_others : forall other h ds ts h' k d p name,
  declared other h ds ts h' -> nth_error (all_nodes ds) k = Some d -> nth_error (fnodes ts) k = Some p ->
  (forall x, In x (d_props d) -> dp_name x <> name) -> exists i, hget h' p = Some i /\ mfind (i_props i) name = None.
Proof.
  intros other h ds ts h' k d p name D Hd Hp Hx. destruct D as [_ _ _ _ _ (refs & Hl & Hi)]. destruct (Hi k d p Hd Hp) as (i & Ei & _ & _ & _ & _ & Hm).
  exists i. split; [exact Ei|]. rewrite Hm. destruct (last_prop (d_props d) name) as [x|] eqn:E; [|reflexivity]. exfalso.
  unfold last_prop in E. apply find_some in E as [E1 E2]. apply in_rev in E1. destruct (beqb_spec (dp_name x) name) as [E3|]; [|discriminate E2]. exact (Hx x E1 E3).
Qed.
(** Go's order of maps makes no difference. *)
Theorem C67_order : forall other ord ord' l h, any_decls ord -> any_decls ord' -> Forall proper (all_nodes (root_insts l)) ->
  Root_Declare other ord l h = Root_Declare other ord' l h.
Proof.
  intros other ord ord' l h Hord Hord' Hp. unfold Root_Declare. rewrite declare_loop_eq. pose proof (build_list_builds (root_insts l) (Bst h [] [])) as HB.
  destruct (build_list (root_insts l) (Bst h [] [])) as [qs s']. destruct (props_facts h _ qs s' HB) as (F1 & F2 & F3 & F4).
  pose proof (props_proper h _ qs s' HB Hp) as P.
  rewrite <- (set_all_order other (b_refs s') _ _ (b_heap s') (Hord (b_props s')) P F3 F4).
  now rewrite <- (set_all_order other (b_refs s') _ _ (b_heap s') (Hord' (b_props s')) P F3 F4).
Qed.
(** The Instance function keeps properties and children in order, and the last
    label. *)
Definition e_props (es : list element) : list dprop := flat_map (fun e => match e with EProp p => [p] | _ => [] end) es.
Definition e_children (es : list element) : list dinst := flat_map (fun e => match e with EInst d => [d] | _ => [] end) es.
Definition e_refs (es : list element) : list bytes := flat_map (fun e => match e with ERef r => [r] | _ => [] end) es.
Theorem C67_builder : forall class es, d_Instance class es = DInst class (last (e_refs es) []) (e_props es) (e_children es).
Proof.
  intros class es. unfold d_Instance.
  assert (G : forall es c r ps cs, fold_left add_element es (DInst c r ps cs) = DInst c (last (e_refs es) r) (ps ++ e_props es) (cs ++ e_children es)).
  { clear. induction es as [|[r0|p|d] es IH]; intros c r ps cs; cbn [fold_left add_element].
    - cbn. now rewrite !app_nil_r.
    - rewrite IH. change (e_refs (ERef r0 :: es)) with (r0 :: e_refs es). f_equal. destruct (e_refs es) as [|y l]; [reflexivity|].
      cbn [last]. destruct l; [reflexivity|]. generalize b as z. clear. intros z. revert z. induction l as [|w l IH]; intros z; [reflexivity|]. cbn [last]. apply (IH w).
    - rewrite IH. change (e_props (EProp p :: es)) with (p :: e_props es). now rewrite <- app_assoc.
    - rewrite IH. change (e_children (EInst d :: es)) with (d :: e_children es). now rewrite <- app_assoc. }
  apply G.
Qed.

(** An example: two labels, the second declared twice; references forward, to a
    shadowed label and to nothing; a property declared twice. *)
Definition lab (s : string) : bytes := str s.
Definition ref_to (n s : string) : dprop := DProp (str n) TypeReference [DString (str s)].
Definition ex_tree : list primary :=
  [ PMeta (str "k") (str "old");
    PInst (d_Instance (str "Model") [ ERef (str "a"); EProp (ref_to "Fwd" "b"); EProp (ref_to "Own" "a"); EProp (ref_to "None" "zz");
      EInst (d_Instance (str "Part") [ ERef (str "b"); EProp (DProp (str "N") TypeInt [DInt Kuint8 7]); EProp (DProp (str "N") TypeInt [DFloat64 0x4059133333333333]) ]);
      EInst (d_Instance (str "Part") [ ERef (str "x"); ERef (str "b") ]) ]);
    PMeta (str "k") (str "new");
    PInst (d_Instance (str "Folder") [ EProp (DProp (str "V") TypeVector3 [DInt Kint 1; DFloat32 0x40000000; DOther]) ]) ]%string%N%Z.
Example C67_example : Forall proper (all_nodes (root_insts ex_tree)) /\ no_explosion (root_insts ex_tree) /\
  Root_Declare (fun _ _ _ _ => 0%Z) (@rev _) ex_tree [] = OK (Root [1; 4] [(str "k", str "new")],
    [ Inst (str "Model") (str "a") false [(str "Fwd", RReference 3); (str "Own", RReference 1); (str "None", RReference 0)] [2; 3];
      Inst (str "Part") (str "b") false [(str "N", RInt 100%Z)] [];
      Inst (str "Part") (str "b") false [] [];
      Inst (str "Folder") [] false [(str "V", RVector3 (Vec3 0x3f800000 0x40000000 0)%N)] [] ]).
Proof.
  split; [|split].
  - repeat constructor; discriminate.
  - intros (d & p & Hd & Hp & Ht & _). vm_compute in Hd.
    repeat (destruct Hd as [<-|Hd]; [vm_compute in Hp; repeat (destruct Hp as [<-|Hp]; [discriminate Ht|]); exact Hp|]). exact Hd.
  - vm_compute. reflexivity.
Qed.

(** ** C68: the comment of Property, where it is right and where it is not *)

(** Alone, a property has no instances to refer to. *)
Definition no_label (s : bytes) (q : ptr) : Prop := q = 0.
Theorem C68_documented : forall other name t vals v, documented no_label t vals v -> as_documented t vals ->
  Property_Declare other (DProp name t vals) = OK (Some v).
Proof. intros other name t vals v H Ha. apply (value_documented other no_label []); [|exact H|exact Ha]. intros s q Hq. now symmetry. Qed.
Theorem C68_astray : forall other name t vals o, astray no_label t vals o ->
  Property_Declare other (DProp name t vals) = match o with Some v => OK (Some v) | None => Panic end.
Proof. intros other name t vals o H. exact (value_astray other no_label [] t vals o H). Qed.
(** In a tree, an astray property has its astray value. *)
Theorem C68_astray_tree : forall other h ds ts h' k d p name x v,
  declared other h ds ts h' -> nth_error (all_nodes ds) k = Some d -> nth_error (fnodes ts) k = Some p ->
  last_prop (d_props d) name = Some x -> astray (labelled ds (fnodes ts)) (dp_type x) (dp_vals x) (Some v) ->
  exists i, hget h' p = Some i /\ mfind (i_props i) name = Some v.
Proof.
  intros other h ds ts h' k d p name x v D Hd Hp Hx Hv. destruct D as [_ _ _ _ _ (refs & Hl & Hi)].
  destruct (Hi k d p Hd Hp) as (i & Ei & C & R & _ & _ & Hm). exists i. split; [exact Ei|]. rewrite Hm, Hx. now rewrite (value_astray other _ refs _ _ _ Hv).
Qed.
(** Every documented declaration is of one kind or the other; of a Double, when
    its value is not NaN. *)
Lemma not_nan_bits f (neg : bool) a : f_ok f -> (0 <= a <= f_inf f)%Z -> f_word f (with_sign f neg a) /\ f_isnan f (with_sign f neg a) = false.
Proof.
  intros Hf Ha. pose proof (inf_bits f Hf) as I. destruct (parts_with_sign f neg a Hf ltac:(lia)) as (P1 & P2 & P3). split; [exact P3|].
  unfold f_isnan, f_decode. fold (f_neg f (with_sign f neg a)). fold (f_abs f (with_sign f neg a)). rewrite P1, P2. pose proof (w_pos f Hf) as W.
  destruct (Z.eqb_spec (a / 2 ^ f_mw f) (2 ^ f_ew f - 1)) as [E|E]; [|destruct (_ =? 0)%Z; reflexivity].
  destruct (Z.eqb_spec (a mod 2 ^ f_mw f) 0) as [E0|E0]; [reflexivity|]. exfalso. unfold f_inf in Ha. pose proof (Z.div_mod a (2 ^ f_mw f) ltac:(lia)).
  pose proof (Z.mod_pos_bound a (2 ^ f_mw f) ltac:(lia)). nia.
Qed.
Lemma nearest_not_nan f x n : f_ok f -> nearest f x n -> f_word f n /\ f_isnan f n = false.
Proof. intros Hf (a & [A _] & [[_ ->]|[_ ->]]); [apply (not_nan_bits f false a Hf A)|apply (not_nan_bits f true a Hf A)]. Qed.
Lemma real_not_nan f n x : f_ok f -> f_real f n = Some x -> f_word f n /\ f_isnan f n = false.
Proof.
  intros Hf R. split; [exact (f_real_word f Hf n x R)|]. destruct (f_real_decode f Hf n x R) as (neg & m & e & D & _). unfold f_isnan. now rewrite D.
Qed.
Theorem C68_split : forall label t vals v, documented label t vals v -> (t = TypeDouble -> forall a, hd_error vals = Some a -> fits a /\ not_nan a) ->
  as_documented t vals \/ exists o, astray label t vals o.
Proof.
  intros label t vals v H Hn. destruct (N.eq_dec t TypeDouble) as [Ht|Ht]; [|now apply documented_split with (v := v)].
  destruct vals as [|a rest]; [left; now left|]. destruct (Hn Ht a eq_refl) as [Hf Hnn]. subst t.
  inversion H; subst; try (left; right; left; eauto; fail).
  right. match goal with D : double a ?y |- _ => rename y into x'; rename D into Hx end.
  assert (Hd : f_word F64 x' /\ f_isnan F64 x' = false).
  { clear - Hx Hf Hnn. destruct Hx as [f|k z g N Z0|f x g y R R' E Z0|neg]; cbn [fits not_nan] in *.
    - now split.
    - exact (nearest_not_nan F64 _ g F64_ok N).
    - exact (real_not_nan F64 g y F64_ok R').
    - apply (not_nan_bits F64 neg (f_inf F64) F64_ok). split; [discriminate|apply Z.le_refl]. }
  destruct (single_total (DFloat64 x') I (proj1 Hd) (proj2 Hd)) as [y Hy]. eauto using astray.
Qed.
(** The comment is wrong for every text given to three types of text and every
    Double: the value has another type; and for groups of numbers in sequences,
    which leave no keypoints. *)
Theorem C68_wrong_type : forall label t vals v w, documented label t vals v -> astray label t vals (Some w) ->
  In t [TypeBinaryString; TypeProtectedString; TypeContent; TypeDouble] -> rtype v = t /\ rtype w <> t.
Proof.
  intros label t vals v w H Ha Ht. split.
  - inversion H; subst; try reflexivity. apply newvalue_type; assumption.
  - clear H. assert (Ha' : exists o, o = Some w /\ astray label t vals o) by eauto. destruct Ha' as (o & Eo & Ha'). clear Ha.
    destruct Ha'; try discriminate Eo; apply Some_eq in Eo; subst w; cbn [rtype]; try (exfalso; cbn in Ht; intuition discriminate).
    + cbn [In] in H. intros E. rewrite <- E in H. intuition discriminate.
    + discriminate.
Qed.
Theorem C68_groups_lost : forall label t vals v w, documented label t vals v -> astray label t vals (Some w) ->
  (t = TypeNumberSequence -> w = RNumberSequence [] /\ v <> w) /\ (t = TypeColorSequence -> w = RColorSequence [] /\ v <> w).
Proof.
  intros label t vals v w H Ha. assert (Ha' : exists o, o = Some w /\ astray label t vals o) by eauto. destruct Ha' as (o & Eo & Ha'). clear Ha.
  destruct Ha' as [t' a s rest Ht Hs|a x y rest Hx Hy|p l last rot Hn Hl|l ks Hg Hn|l ks Hg Hn|l ks Hg Hn|a b c d|v' Hv]; try discriminate Eo; apply Some_eq in Eo; subst w;
    try (split; intros E; try discriminate E; exfalso; rewrite E in Ht; cbn in Ht; intuition discriminate).
  - split; [|discriminate]. intros _. split; [reflexivity|]. intros ->. destruct Hg as [|a b c l k ks X1 X2 X3 Hg]; [cbn in Hn; lia|].
    assert (Ha : forall v, a <> DValue v) by (destruct X1; discriminate). clear - H Ha. inversion H; subst; try (cbn in *; lia). now apply (Ha (RNumberSequence [])).
  - split; [discriminate|]. intros _. split; [reflexivity|]. intros ->. destruct Hg as [|a c l k ks X1 X2 Hg]; [cbn in Hn; lia|].
    assert (Ha : forall v, a <> DValue v) by (destruct X1; discriminate). clear - H Ha. inversion H; subst; try (cbn in *; lia). now apply (Ha (RColorSequence [])).
  - split; [discriminate|]. intros _. split; [reflexivity|]. intros ->. destruct Hg as [|a b c d e l k ks X1 Hg]; [cbn in Hn; lia|]. destruct X1 as [X1 _].
    assert (Ha : forall v, a <> DValue v) by (destruct X1; discriminate). clear - H Ha. inversion H; subst; try (cbn in *; lia). now apply (Ha (RColorSequence [])).
Qed.
(** Examples: a rotation that is shifted, a Rect whose maximum is its minimum,
    a Double. *)
Definition f1 : N := 0x3f800000. Definition f2 : N := 0x40000000.
Example C68_examples : forall other name,
  let cf := [DValue (RVector3 (Vec3 f1 f2 f1)); DFloat32 f1; DFloat32 f2; DFloat32 f1; DFloat32 f1; DFloat32 f1; DFloat32 f1; DFloat32 f1; DFloat32 f1; DFloat32 f2] in
  let re := [DValue (RVector2 f1 f1); DValue (RVector2 f2 f2)] in
  documented no_label TypeCFrame cf (RCFrame (Vec3 f1 f2 f1) [f1; f2; f1; f1; f1; f1; f1; f1; f2]) /\
  Property_Declare other (DProp name TypeCFrame cf) = OK (Some (RCFrame (Vec3 f1 f2 f1) [0%N; f1; f2; f1; f1; f1; f1; f1; f1])) /\
  documented no_label TypeRect re (RRect f1 f1 f2 f2) /\
  Property_Declare other (DProp name TypeRect re) = OK (Some (RRect f1 f1 f1 f1)) /\
  documented no_label TypeDouble [DInt Kint 1] (RDouble 0x3ff0000000000000) /\
  Property_Declare other (DProp name TypeDouble [DInt Kint 1]) = OK (Some (RFloat f1)) /\
  Property_Declare other (DProp name TypeColorSequence [DString []]) = Panic.
Proof.
  intros other name cf re. repeat apply conj; try (vm_compute; reflexivity).
  - apply dc_cframe; [reflexivity|]. repeat constructor.
  - apply dc_rect.
  - apply dc_double. destruct (of_Z_nearest F64 1 F64_ok) as [N _]. apply do_int; [exact N|discriminate].
Qed.

(** ** C69: which declarations panic, the types of values, and when the zero
    value is given *)

Theorem C69_panic : forall other p, Property_Declare other p = Panic <-> explodes p.
Proof. intros other p. apply value_panics. Qed.
Theorem C69_root_panic : forall other ord l h, any_decls ord -> Forall proper (all_nodes (root_insts l)) ->
  (Root_Declare other ord l h = Panic <-> exists d p, In d (all_nodes (root_insts l)) /\ In p (d_props d) /\ explodes p).
Proof.
  intros other ord l h Hord Hp. split.
  - intros E.
    assert (Dec : (exists d p, In d (all_nodes (root_insts l)) /\ In p (d_props d) /\ explodes p) \/ no_explosion (root_insts l)).
    { pose proof (build_list_builds (root_insts l) (Bst h [] [])) as HB. destruct (build_list (root_insts l) (Bst h [] [])) as [qs s'].
      destruct (sound_or_panics_all other (b_refs s') _ (props_proper h _ qs s' HB Hp)) as [G|G].
      - right. intros X. apply (exploding other h _ qs s' HB) in X. apply Exists_exists in X. destruct X as (e & He & X). apply Exists_exists in X. destruct X as (p & Hpp & X).
        rewrite Forall_forall in G. specialize (G e He). rewrite Forall_forall in G. destruct (G p Hpp) as [v Hv]. unfold panics in X. congruence.
      - left. now apply (exploding other h _ qs s' HB). }
    destruct Dec as [X|X]; [exact X|]. exfalso. destruct (C67_root other ord l h Hord Hp X) as (ts & r & h' & E' & _). congruence.
  - intros X. unfold Root_Declare. rewrite declare_loop_eq. pose proof (build_list_builds (root_insts l) (Bst h [] [])) as HB.
    destruct (build_list (root_insts l) (Bst h [] [])) as [qs s']. now rewrite (finish_panic other h _ qs s' HB ord Hord X).
Qed.
(** The value of a property has the declared type, but for the four types whose
    values turn into another one. *)
Theorem C69_types : forall other p r, NewValue (dp_type p) <> None -> Property_Declare other p = OK r ->
  exists v, r = Some v /\ (rtype v = dp_type p \/
    In (dp_type p) [TypeBinaryString; TypeProtectedString; TypeContent] /\ rtype v = TypeString \/ dp_type p = TypeDouble /\ rtype v = TypeFloat).
Proof. intros other p r Hn E. destruct (value_typed other _ _ _ r Hn E) as (v & -> & Hv). exists v. split; [reflexivity|]. exact Hv. Qed.
Theorem C69_zero : forall other name t a rest, unaccepted t a rest -> ~ own t a -> Property_Declare other (DProp name t (a :: rest)) = OK (NewValue t).
Proof. intros other name t a rest H Ho. exact (value_zero other t [] a rest H Ho). Qed.
(** In spite of the comment, values of the wrong kind need not give the zero
    value. *)
Theorem C69_not_zero : forall other name, Property_Declare other (DProp name TypeUDim [DString (str "x"); DInt Kint 5]) = OK (Some (RUDim 0 5)) /\
  NewValue TypeUDim = Some (RUDim 0 0).
Proof. intros. split; vm_compute; reflexivity. Qed.
Example C69_example : unaccepted TypeUDim (DInt Kint 5) [] /\ ~ own TypeUDim (DInt Kint 5) /\
  unaccepted TypeColorSequence DOther [DOther] /\ ~ own TypeColorSequence DOther /\ explodes (DProp [] TypeColorSequence [DOther]).
Proof.
  repeat apply conj; try (intros (v & E & _); discriminate E).
  - eapply un_count; [reflexivity|]. cbn. lia.
  - apply un_colors; discriminate.
  - reflexivity.
  - exists DOther. split; [reflexivity|discriminate].
Qed.

(** ** C70: numbers of any type *)

Theorem C70_float : forall other name v rest, number v -> fits v -> not_nan v ->
  exists g, single v g /\ Property_Declare other (DProp name TypeFloat (v :: rest)) = OK (Some (RFloat g)).
Proof.
  intros other name v rest Hn Hf Hv. destruct (single_total v Hn Hf Hv) as [g Hg]. exists g. split; [exact Hg|].
  apply C68_documented; [now constructor|]. right. right. cbn [In]. split; [intuition discriminate|]. repeat split; discriminate.
Qed.
Theorem C70_float_unique : forall v g g', single v g -> single v g' -> g = g'.
Proof. intros v g g' H H'. apply normFloat32_spec in H, H'. congruence. Qed.
Lemma f_real_with_sign f (neg : bool) b : f_ok f -> (0 <= b < f_inf f)%Z -> f_real f (with_sign f neg b) = Some (if neg then - magnitude f b else magnitude f b).
Proof.
  intros Hf Hb. pose proof (inf_bits f Hf) as I. unfold f_real, with_sign. change (sign_bit f) with (2 ^ f_bits f)%Z. set (P := (2 ^ f_bits f)%Z) in *.
  rewrite Z2N.id by (destruct neg; lia).
  assert (E : (((if neg then P else 0) + b) mod P = b)%Z).
  { destruct neg; [|now apply Z.mod_small; lia]. rewrite Z.add_comm, <- (Z.mul_1_l P) at 1. rewrite Z.mod_add, Z.mod_small by lia. reflexivity. }
  rewrite E. destruct (Z.ltb_spec b (f_inf f)) as [_|]; [|lia]. destruct (Z.ltb_spec ((if neg then P else 0) + b) (2 * P)) as [_|]; [|destruct neg; lia].
  cbn [andb]. destruct (Z.leb_spec P ((if neg then P else 0) + b)); destruct neg; try reflexivity; lia.
Qed.
(** Nothing is lost when there is a float32 with the same value. *)
Lemma nearest_exact f x g n y : f_ok f -> nearest f x g -> f_real f n = Some y -> (x == y)%Q -> exists z, f_real f g = Some z /\ (z == x)%Q.
Proof.
  intros Hf N R E. destruct (f_real_parts f Hf n y R) as (neg & b & -> & Hb & Y). destruct N as (a & [Ha Hm] & HS).
  pose proof (magnitude_nonneg f Hf b ltac:(lia)) as Mb.
  assert (EB : (Qabs x == magnitude f b)%Q).
  { rewrite E, Y, Qabs_Qmult. rewrite (Qabs_pos (magnitude f b)) by exact Mb. destruct neg; [change (Qabs (- 1)) with 1%Q|change (Qabs 1) with 1%Q]; ring. }
  destruct (Hm b ltac:(lia)) as [Hm1 _].
  assert (EA : (magnitude f a == magnitude f b)%Q).
  { rewrite EB in Hm1. assert (E0 : (magnitude f b - magnitude f b == 0)%Q) by ring. rewrite E0 in Hm1. change (Qabs 0) with 0%Q in Hm1.
    destruct (Qlt_le_dec (magnitude f b - magnitude f a) 0) as [L|L].
    - rewrite Qabs_neg in Hm1 by (now apply Qlt_le_weak). lra.
    - rewrite Qabs_pos in Hm1 by exact L. lra. }
  assert (a = b) by (apply (magnitude_inj f Hf); [lia|lia|exact EA]). subst a. destruct HS as [[S ->]|[S ->]].
  - change (Z.to_N b) with (with_sign f false b). rewrite f_real_with_sign by assumption. eexists. split; [reflexivity|]. rewrite <- EB. now apply Qabs_pos.
  - change (Z.to_N (sign_bit f + b)) with (with_sign f true b). rewrite f_real_with_sign by assumption. eexists. split; [reflexivity|].
    rewrite <- EB. rewrite Qabs_neg by exact S. ring.
Qed.
Theorem C70_exact : forall v g x n y, single v g -> real_of v = Some x -> f_real F32 n = Some y -> x == y -> exists z, f_real F32 g = Some z /\ z == x.
Proof.
  intros v g x n y H Hx R E. destruct H as [f|k z g N Z0|f x' g R' N Z0|neg]; cbn [real_of] in Hx.
  - exists x. split; [exact Hx|reflexivity].
  - apply Some_eq in Hx. subst x. exact (nearest_exact F32 _ g n y F32_ok N R E).
  - assert (x' = x) by congruence. subst x'. exact (nearest_exact F32 _ g n y F32_ok N R E).
  - destruct neg; discriminate Hx.
Qed.
Theorem C70_nan : forall other name f rest, f_word F64 f -> f_isnan F64 f = true ->
  exists g, f_isnan F32 g = true /\ Property_Declare other (DProp name TypeFloat (DFloat64 f :: rest)) = OK (Some (RFloat g)).
Proof. intros other name f rest Hw Hn. exists (f32_of_f64 f). split; [now apply nan_stays|reflexivity]. Qed.
(** Integers: the types of values and what they do to any number. *)
Theorem C70_integer : forall other name v rest z,
  (signed 32 v z -> Property_Declare other (DProp name TypeInt (v :: rest)) = OK (Some (RInt z))) /\
  (signed 64 v z -> Property_Declare other (DProp name TypeInt64 (v :: rest)) = OK (Some (RInt64 z))) /\
  (unsigned 32 v z -> Property_Declare other (DProp name TypeToken (v :: rest)) = OK (Some (RToken (Z.to_N z)))) /\
  (unsigned 32 v z -> Property_Declare other (DProp name TypeBrickColor (v :: rest)) = OK (Some (RBrickColor (Z.to_N z)))).
Proof.
  intros other name v rest z.
  assert (G : forall t, In t [TypeInt; TypeInt64; TypeToken; TypeBrickColor] -> as_documented t (v :: rest)).
  { intros t Ht. right. right. split; [|repeat split; intros ->; exfalso; cbn in Ht; intuition discriminate].
    intros H. cbn [In] in *. destruct Ht as [<-|[<-|[<-|[<-|[]]]]]; intuition discriminate. }
  repeat apply conj; intros H; (apply C68_documented; [now constructor|apply G; cbn; tauto]).
Qed.
(** Every integer has such a result, and every float whose value without its
    fraction fits. *)
Theorem C70_integer_total : forall lo n v x z, (0 <= n)%Z -> number v -> real_of v = Some x ->
  (match v with DInt _ _ => True | _ => truncated x z /\ (lo <= z < lo + 2 ^ n)%Z end) -> exists z', whole lo n v z'.
Proof.
  intros lo n v x z Hn Hv Hx H. destruct v as [k i|f|f| | | | | | | |]; try contradiction Hv; cbn [real_of] in Hx.
  - pose proof (Z.pow_pos_nonneg 2 n ltac:(lia) Hn) as P. exists (lo + (i - lo) mod 2 ^ n)%Z. constructor.
    + pose proof (Z.mod_pos_bound (i - lo) (2 ^ n) P). lia.
    + replace (i - (lo + (i - lo) mod 2 ^ n))%Z with ((i - lo) / 2 ^ n * 2 ^ n)%Z by (pose proof (Z.div_mod (i - lo) (2 ^ n) ltac:(lia)); lia). apply Z.mod_mul. lia.
  - destruct H. eauto using wh_f32.
  - destruct H. eauto using wh_f64.
Qed.
Theorem C70_integer_unique : forall lo n v z z', (0 <= n)%Z -> whole lo n v z -> whole lo n v z' -> z = z'.
Proof.
  intros lo n v z z' Hn H H'. destruct H as [k x z B E|f x z R T B|f x z R T B].
  - inversion H'; subst. eapply wrap_unique; eassumption.
  - inversion H' as [|f' x' w' R' T' B'|]; subst. assert (x' = x) by congruence. subst x'. exact (truncated_unique F32 x _ _ T T').
  - inversion H' as [| |f' x' w' R' T' B']; subst. assert (x' = x) by congruence. subst x'. exact (truncated_unique F32 x _ _ T T').
Qed.
(** Examples: 300 as an Int from an int and from -300.75 as a float64; 2^24 + 1
    has two nearest float32s and takes the even one; -1 as a Token. *)
Example C70_examples : forall other name,
  Property_Declare other (DProp name TypeInt [DInt Kuint16 300]) = OK (Some (RInt 300)) /\
  Property_Declare other (DProp name TypeInt [DFloat64 0xc072cc0000000000]) = OK (Some (RInt (-300))) /\
  Property_Declare other (DProp name TypeFloat [DInt Kint 16777217]) = OK (Some (RFloat 0x4b800000)) /\
  Property_Declare other (DProp name TypeToken [DInt Kint (-1)]) = OK (Some (RToken 0xffffffff)) /\
  signed 32 (DInt Kint (2 ^ 32 + 5)) 5 /\ number (DInt Kint 16777217) /\ fits (DFloat32 f1) /\ not_nan (DFloat32 f1).
Proof.
  intros other name. repeat apply conj; try (vm_compute; reflexivity).
  apply wh_int; [|reflexivity]. split; [discriminate|reflexivity].
Qed.

(** ** C71: names of types *)

Definition upper (b : byte) : bool := (0x41 <=? b2N b)%N && (b2N b <=? 0x5a)%N.
(** The same character but for the case of ASCII letters. *)
Definition same_letter (a b : byte) : Prop :=
  a = b \/ (upper a = true /\ b2N b = b2N a + 32)%N \/ (upper b = true /\ b2N a = b2N b + 32)%N.
(** Text and a name, up to case; the Kelvin sign is a K and the capital I with a
    dot is an I. *)
Inductive folds : bytes -> bytes -> Prop :=
| fo_nil : folds [] []
| fo_letter a b s n : same_letter a b -> folds s n -> folds (a :: s) (b :: n)
| fo_kelvin b s n : same_letter x6b b -> folds s n -> folds (xe2 :: x84 :: xaa :: s) (b :: n)
| fo_dotted b s n : same_letter x69 b -> folds s n -> folds (xc4 :: xb0 :: s) (b :: n).
Definition ascii (n : bytes) : Prop := Forall (fun b => (b2N b < 128)%N) n.
Lemma byte_cases (P : byte -> Prop) : (forall n, (n < 256)%N -> P (N2b n)) -> forall b, P b.
Proof. intros H b. rewrite <- (N2b_b2N b). apply H. apply b2N_lt. Qed.

Lemma lower_dec a b : same_letter a b <-> lower_byte a = lower_byte b.
Proof.
  assert (L : forall c, b2N (lower_byte c) = if upper c then (b2N c + 32)%N else b2N c).
  { intros c. unfold lower_byte, upper. destruct (_ && _) eqn:E; [|reflexivity]. rewrite b2N_N2b. apply N.mod_small. lia. }
  assert (E : lower_byte a = lower_byte b <-> b2N (lower_byte a) = b2N (lower_byte b)) by (split; [congruence|apply b2N_inj]).
  rewrite E, !L. unfold same_letter. split.
  - intros [->|[[U H]|[U H]]]; [reflexivity| |]; rewrite U; [destruct (upper b) eqn:V|destruct (upper a) eqn:V]; try lia; unfold upper in *; lia.
  - destruct (upper a) eqn:U, (upper b) eqn:V; intros H; [left; apply b2N_inj; lia| | |left; now apply b2N_inj].
    + right. left. split; [reflexivity|lia].
    + right. right. split; [reflexivity|lia].
Qed.
Lemma lower_ascii b : (b2N b < 128)%N -> (b2N (lower_byte b) < 128)%N.
Proof. intros H. unfold lower_byte. destruct (_ && _) eqn:E; [|exact H]. rewrite b2N_N2b, N.mod_small; lia. Qed.
Lemma to_lower_ascii n : ascii n -> to_lower n = map lower_byte n.
Proof.
  induction 1 as [|b n Hb _ IH]; [reflexivity|]. cbn [map]. rewrite <- IH.
  destruct (Byte.eqb b xe2) eqn:E1; [apply byte_dec_bl in E1; subst b; now exfalso|]. destruct (Byte.eqb b xc4) eqn:E2; [apply byte_dec_bl in E2; subst b; now exfalso|].
  destruct b; try reflexivity; discriminate.
Qed.

Lemma folds_spec n : ascii n -> forall s, folds s n <-> to_lower s = map lower_byte n.
Proof.
  intros Hn s. split.
  - induction 1 as [|a b s n H _ IH|b s n H _ IH|b s n H _ IH]; [reflexivity| | |].
    + inversion Hn as [|? ? Hb Hn']; subst. cbn [map]. rewrite <- (IH Hn'). apply lower_dec in H. rewrite <- H.
      assert (Ha : (b2N a < 128)%N).
      { destruct (N.lt_ge_cases (b2N a) 128) as [G|G]; [exact G|]. exfalso. pose proof (lower_ascii b Hb) as L. rewrite <- H in L. unfold lower_byte in L.
        destruct (_ && _) eqn:E in L; lia. }
      clear - Ha. destruct a; try reflexivity; exfalso; vm_compute in Ha; discriminate Ha.
    + inversion Hn; subst. cbn [to_lower map]. rewrite IH by assumption. apply lower_dec in H. now rewrite <- H.
    + inversion Hn; subst. cbn [to_lower map]. rewrite IH by assumption. apply lower_dec in H. now rewrite <- H.
  - remember (length s) as k eqn:Ek. assert (Hk : length s <= k) by lia. clear Ek. revert s n Hn Hk. induction k as [|k IH]; intros s n Hn Hk E.
    + destruct s; [|cbn in Hk; lia]. destruct n; [constructor|discriminate E].
    + destruct s as [|a s]; [destruct n; [constructor|discriminate E]|].
      assert (C : to_lower (a :: s) = lower_byte a :: to_lower s \/ (exists s', a :: s = xe2 :: x84 :: xaa :: s') \/ (exists s', a :: s = xc4 :: xb0 :: s')).
      { cbn [to_lower]. destruct a; try (now left).
        - destruct s as [|b s]; [now left|]. destruct b; try (now left). right. right. eauto.
        - destruct s as [|b s]; [now left|]. destruct b; try (now left). destruct s as [|c s]; [now left|]. destruct c; try (now left). right. left. eauto. }
      destruct C as [C|[[s' C]|[s' C]]].
      * rewrite C in E. destruct n as [|b n]; [discriminate E|]. cbn [map] in E. inversion Hn; subst. apply fo_letter; [apply lower_dec; congruence|]. apply IH; [assumption|cbn in Hk; lia|congruence].
      * rewrite C in *. cbn [to_lower] in E. destruct n as [|b n]; [discriminate E|]. cbn [map] in E. inversion Hn; subst. apply fo_kelvin; [apply lower_dec; change (lower_byte x6b) with x6b; congruence|].
        apply IH; [assumption|cbn in Hk; lia|congruence].
      * rewrite C in *. cbn [to_lower] in E. destruct n as [|b n]; [discriminate E|]. cbn [map] in E. inversion Hn; subst. apply fo_dotted; [apply lower_dec; change (lower_byte x69) with x69; congruence|].
        apply IH; [assumption|cbn in Hk; lia|congruence].
Qed.
(** The names, written out. *)
Definition type_names : list (Type_ * string) :=
  combine declared_types
    ["String"; "BinaryString"; "ProtectedString"; "Content"; "Bool"; "Int"; "Float"; "Double"; "UDim"; "UDim2"; "Ray"; "Faces"; "Axes"; "BrickColor"; "Color3";
     "Vector2"; "Vector3"; "CFrame"; "Token"; "Reference"; "Vector3int16"; "Vector2int16"; "NumberSequence"; "ColorSequence"; "NumberRange"; "Rect";
     "PhysicalProperties"; "Color3uint8"; "Int64"; "SharedString"]%string.
Lemma from_string_in table s : NoDup (map (fun e => to_lower (str (snd e))) table) ->
  (forall t n, In (t, n) table -> to_lower s = to_lower (str n) -> d_type_from_string_in table s = t) /\
  ((forall t n, In (t, n) table -> to_lower s <> to_lower (str n)) -> d_type_from_string_in table s = 0%N).
Proof.
  induction table as [|[t n] table IH]; intros H; [split; [intros ? ? []|reflexivity]|]. cbn [map snd] in H. inversion H as [|? ? H1 H2]; subst. specialize (IH H2) as [I1 I2].
  cbn [d_type_from_string_in]. split.
  - intros t' n' Hin E. destruct (beqb_spec (to_lower s) (to_lower (str n))) as [E'|E'].
    + destruct Hin as [X|X]; [congruence|]. exfalso. apply H1. rewrite <- E', E. apply (in_map (fun e => to_lower (str (snd e))) _ _ X).
    + destruct Hin as [X|X]; [injection X as -> ->; congruence|]. now apply (I1 t' n').
  - intros X. destruct (beqb_spec (to_lower s) (to_lower (str n))) as [E'|E']; [now destruct (X t n (or_introl eq_refl))|]. apply I2. intros t' n' Hin. apply (X t' n'). now right.
Qed.
(** In any order of the map: the type whose name the text is, up to case, else
    the invalid type 0. *)
Theorem C71_from_string : forall table s, Permutation d_typeStrings table ->
  (forall t n, In (t, n) type_names -> folds s (str n) -> d_type_from_string_in table s = t) /\
  ((forall t n, In (t, n) type_names -> ~ folds s (str n)) -> d_type_from_string_in table s = 0%N).
Proof.
  intros table s P. assert (ET : d_typeStrings = type_names) by reflexivity. rewrite ET in P.
  assert (HA : forall t n, In (t, n) type_names -> ascii (str n)).
  { assert (G : forallb (fun e => forallb (fun b => (b2N b <? 128)%N) (str (snd e))) type_names = true) by (vm_compute; reflexivity).
    intros t n Hin. rewrite forallb_forall in G. specialize (G _ Hin). cbn [snd] in G. rewrite forallb_forall in G. apply Forall_forall. intros b Hb. apply N.ltb_lt. now apply G. }
  assert (ND : NoDup (map (fun e => to_lower (str (snd e))) type_names)).
  { assert (G : nodup (list_eq_dec Byte.byte_eq_dec) (map (fun e => to_lower (str (snd e))) type_names) = map (fun e => to_lower (str (snd e))) type_names) by (vm_compute; reflexivity).
    rewrite <- G. apply NoDup_nodup. }
  assert (ND' : NoDup (map (fun e => to_lower (str (snd e))) table)) by (eapply Permutation_NoDup; [apply Permutation_map; exact P|exact ND]).
  destruct (from_string_in table s ND') as [I1 I2].
  assert (F : forall t n, In (t, n) type_names -> (folds s (str n) <-> to_lower s = to_lower (str n))).
  { intros t n Hin. rewrite (to_lower_ascii (str n)) by (eapply HA; eassumption). apply folds_spec. eapply HA; eassumption. }
  split.
  - intros t n Hin Hf. apply (I1 t n); [eapply Permutation_in; eassumption|]. now apply (F t n Hin).
  - intros H. apply I2. intros t n Hin E. assert (Hin' : In (t, n) type_names) by (eapply Permutation_in; [symmetry; exact P|exact Hin]). apply (H t n Hin'). now apply (F t n Hin').
Qed.
(** String gives that name, the one rbxfile gives the same type, and "Invalid"
    for other numbers; TypeFromString is its inverse. *)
Theorem C71_string : (forall t n, In (t, n) type_names -> d_type_string t = n /\ type_string t = n) /\
  (forall t, ~ In t declared_types -> d_type_string t = "Invalid"%string) /\
  (forall table t, Permutation d_typeStrings table -> In t declared_types -> d_type_from_string_in table (str (d_type_string t)) = t).
Proof.
  split; [|split].
  - assert (G : forallb (fun e => String.eqb (d_type_string (fst e)) (snd e) && String.eqb (type_string (fst e)) (snd e)) type_names = true) by (vm_compute; reflexivity).
    intros t n Hin. rewrite forallb_forall in G. specialize (G _ Hin). apply andb_prop in G as [G1 G2]. apply String.eqb_eq in G1, G2. exact (conj G1 G2).
  - intros t Ht. unfold d_type_string. assert (E : assocN d_typeStrings t = None); [|now rewrite E].
    assert (G : forall (l : list (Type_ * string)), ~ In t (map fst l) -> assocN l t = None).
    { induction l as [|[k v] l IH]; [reflexivity|]. cbn [map fst assocN]. intros H. destruct (N.eqb_spec k t) as [->|_]; [destruct H; now left|]. apply IH. intros X. apply H. now right. }
    apply G. exact Ht.
  - intros table t P Ht. assert (G : forallb (fun t => existsb (fun e => (fst e =? t)%N && String.eqb (snd e) (d_type_string t)) type_names) declared_types = true) by (vm_compute; reflexivity).
    rewrite forallb_forall in G. specialize (G t Ht). apply existsb_exists in G as ([t' n] & Hin & G). apply andb_prop in G as [G1 G2]. cbn [fst snd] in *.
    apply N.eqb_eq in G1. apply String.eqb_eq in G2. subst t'. rewrite <- G2. destruct (C71_from_string table (str n) P) as [I1 _]. apply (I1 t n Hin).
    assert (R : forall l, folds l l) by (induction l; constructor; [now left|assumption]). apply R.
Qed.
Example C71_examples : folds (str "vEcToR3") (str "Vector3") /\ d_type_from_string_in d_typeStrings (str "vEcToR3") = TypeVector3 /\
  d_type_from_string_in d_typeStrings (str "to" ++ [xe2; x84; xaa] ++ str "en") = TypeToken /\ d_type_from_string_in d_typeStrings (str "Invalid") = 0%N.
Proof.
  repeat apply conj; try (vm_compute; reflexivity). apply folds_spec; [|vm_compute; reflexivity]. repeat constructor.
Qed.
