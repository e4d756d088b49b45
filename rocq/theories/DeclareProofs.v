(** DeclareProofs.v - the values of declared properties. *)
From Coq Require Import QArith Lqa.
From Verif Require Import Base RbxlValues RbxValues Tree SpecTree SpecValues Ieee Declare SpecDeclare TreeProofs IeeeNearest DeclareNumbers.
Local Open Scope nat_scope.

Section Values.
Variable other : format -> Z -> Z -> N -> Z.
Notation d_value := (d_value other).
(** Numbers and text are not values of rbxfile. *)
Lemma single_plain a x t : single a x -> assertValue t a = None.
Proof. now intros []. Qed.
Lemma double_plain a x t : double a x -> assertValue t a = None.
Proof. now intros []. Qed.
Lemma whole_plain lo n a x t : whole lo n a x -> assertValue t a = None.
Proof. now intros []. Qed.
Lemma text_plain a x t : text a x -> assertValue t a = None.
Proof. now intros []. Qed.
Lemma single_key a x : single a x -> (forall k, a <> DNSKey k) /\ (forall k, a <> DCSKey k).
Proof. intros []; split; discriminate. Qed.
Ltac plain :=
  match goal with
  | H : single ?a _ |- context[d_value ?t _ (?a :: _)] => pose proof (single_plain a _ t H)
  | H : double ?a _ |- context[d_value ?t _ (?a :: _)] => pose proof (double_plain a _ t H)
  | H : signed _ ?a _ |- context[d_value ?t _ (?a :: _)] => pose proof (whole_plain _ _ a _ t H)
  | H : unsigned _ ?a _ |- context[d_value ?t _ (?a :: _)] => pose proof (whole_plain _ _ a _ t H)
  | H : text ?a _ |- context[d_value ?t _ (?a :: _)] => pose proof (text_plain a _ t H)
  end.
Ltac numbers :=
  repeat match goal with
  | H : vec_of _ _ _ ?v |- _ => let x := fresh "cx" in let y := fresh "cy" in let z := fresh "cz" in destruct v as [x y z]; destruct H as (? & ? & ?); cbn [v3x v3y v3z] in *
  | H : single _ _ |- _ => apply normFloat32_spec in H; subst
  | H : double _ _ |- _ => apply normFloat64_spec in H; subst
  | H : signed 16 _ _ |- _ => apply (normInt16_spec other) in H; subst
  | H : signed 32 _ _ |- _ => apply (normInt32_spec other) in H; subst
  | H : signed 64 _ _ |- _ => apply (normInt64_spec other) in H; subst
  | H : unsigned 8 _ _ |- _ => apply (normUint8_spec other) in H; rewrite <- H; clear H
  | H : unsigned 32 _ _ |- _ => apply (normUint32_spec other) in H; rewrite <- H; clear H
  end.
Ltac finish := unfold Declare.d_value;
  match goal with H : assertValue _ _ = None |- _ => rewrite H | _ => idtac end; reflexivity.
Lemma assertable_types : assertable = declared_types.
Proof. reflexivity. Qed.
Lemma assert_own v : In (rtype v) declared_types -> assertValue (rtype v) (DValue v) = Some v.
Proof.
  intros H. unfold assertValue. rewrite N.eqb_refl, assertable_types. assert (E : existsb (N.eqb (rtype v)) declared_types = true).
  { apply existsb_exists. exists (rtype v). split; [exact H|apply N.eqb_refl]. }
  now rewrite E.
Qed.
Lemma own_value refs v rest : In (rtype v) declared_types -> d_value (rtype v) refs (DValue v :: rest) = OK (Some v).
Proof. intros H. unfold Declare.d_value. now rewrite assert_own. Qed.
Lemma map_as_nskey ks : map as_nskey (map DNSKey ks) = ks.
Proof. rewrite map_map. apply map_id. Qed.
Lemma map_as_cskey ks : map as_cskey (map DCSKey ks) = ks.
Proof. rewrite map_map. apply map_id. Qed.
Lemma singles_map l rot : Forall2 single l rot -> rot = map normFloat32 l.
Proof. induction 1 as [|a x l r H _ IH]; [reflexivity|]. cbn [map]. now rewrite (normFloat32_spec a x H), <- IH. Qed.
Lemma value_documented (label : bytes -> ptr -> Prop) refs t vals v :
  (forall s q, label s q -> rget refs s = q) -> documented label t vals v -> as_documented t vals -> d_value t refs vals = OK (Some v).
Proof.
  intros Hl H Ha.
  assert (G : forall t', t = t' -> In t' [TypeBinaryString; TypeProtectedString; TypeContent; TypeDouble] ->
    forall a rest, vals = a :: rest -> (forall x, a <> DValue x) -> False).
  { intros t' -> Hin a rest -> Hx. destruct Ha as [Ha|[(x & r & E & _)|(Ha & _)]]; [discriminate|injection E as -> _; now apply (Hx x)|now apply Ha]. }
  destruct H.
  - now apply own_value.
  - unfold Declare.d_value. now rewrite H.
  - plain. destruct H; finish.
  - exfalso. refine (G _ eq_refl _ _ _ eq_refl _); [cbn; tauto|]. destruct H; discriminate.
  - exfalso. refine (G _ eq_refl _ _ _ eq_refl _); [cbn; tauto|]. destruct H; discriminate.
  - exfalso. refine (G _ eq_refl _ _ _ eq_refl _); [cbn; tauto|]. destruct H; discriminate.
  - plain. destruct H; finish.
  - reflexivity.
  - plain. numbers. finish.
  - plain. numbers. finish.
  - exfalso. refine (G _ eq_refl _ _ _ eq_refl _); [cbn; tauto|]. destruct H; discriminate.
  - plain. numbers. finish.
  - plain. numbers. finish.
  - plain. numbers. finish.
  - plain. numbers. finish.
  - reflexivity.
  - plain. numbers. finish.
  - destruct o, d. reflexivity.
  - destruct o as [cx cy cz]. destruct H as (? & ? & ?). cbn [v3x v3y v3z] in *. plain. numbers. finish.
  - reflexivity.
  - reflexivity.
  - plain. numbers. finish.
  - plain. numbers. finish.
  - plain. numbers. finish.
  - destruct v as [cx cy cz]. destruct H as (? & ? & ?). cbn [v3x v3y v3z] in *. plain. numbers. finish.
  - plain. numbers. finish.
  - exfalso. destruct Ha as [Ha|[(x & r & E & Et)|(_ & Ha & _)]]; [discriminate| |].
    + injection E as <- <-. discriminate Et.
    + specialize (Ha eq_refl). cbn [length] in Ha. lia.
  - destruct p as [cx cy cz]. destruct H0 as (? & ? & ?). cbn [v3x v3y v3z] in *. plain. apply singles_map in H1. subst rot.
    destruct l as [|l1 [|l2 [|l3 [|l4 [|l5 [|l6 [|l7 [|l8 [|l9 [|? ?]]]]]]]]]]; try discriminate H. numbers. finish.
  - plain. apply Hl in H0. subst q. destruct H; finish.
  - reflexivity.
  - destruct ks as [|k1 [|k2 ks]]; cbn [length] in H; try lia. change (OK (E := Empty_set) (Some (RNumberSequence (map as_nskey (map DNSKey (k1 :: k2 :: ks))))) = OK (Some (RNumberSequence (k1 :: k2 :: ks)))).
    now rewrite map_as_nskey.
  - exfalso. destruct Ha as [Ha|[(x & r & E & Et)|(_ & _ & _ & Ha & _)]].
    + subst. inversion H; subst. cbn in H0. lia.
    + subst. inversion H; subst. match goal with H : single (DValue _) _ |- _ => inversion H end.
    + destruct (Ha eq_refl) as (k & r & ->). inversion H; subst. match goal with H : single (DNSKey _) _ |- _ => inversion H end.
  - destruct ks as [|k1 [|k2 ks]]; cbn [length] in H; try lia. change (OK (E := Empty_set) (Some (RColorSequence (map as_cskey (map DCSKey (k1 :: k2 :: ks))))) = OK (Some (RColorSequence (k1 :: k2 :: ks)))).
    now rewrite map_as_cskey.
  - exfalso. destruct Ha as [Ha|[(x & r & E & Et)|(_ & _ & _ & _ & Ha)]].
    + subst. inversion H; subst. cbn in H0. lia.
    + subst. inversion H; subst. match goal with H : single (DValue _) _ |- _ => inversion H end.
    + destruct (Ha eq_refl) as (k & r & ->). inversion H; subst. match goal with H : single (DCSKey _) _ |- _ => inversion H end.
  - exfalso. destruct Ha as [Ha|[(x & r & E & Et)|(_ & _ & _ & _ & Ha)]].
    + subst. inversion H; subst. cbn in H0. lia.
    + subst. inversion H; subst. match goal with H : color_key (DValue _) _ _ _ _ _ |- _ => destruct H as [H _]; inversion H end.
    + destruct (Ha eq_refl) as (k & r & ->). inversion H; subst. match goal with H : color_key (DCSKey _) _ _ _ _ _ |- _ => destruct H as [H _]; inversion H end.
  - plain. numbers. finish.
  - exfalso. destruct Ha as [Ha|[(x & r & E & Et)|(_ & _ & Ha & _)]]; [discriminate| |].
    + injection E as <- <-. discriminate Et.
    + specialize (Ha eq_refl). discriminate Ha.
  - plain. numbers. finish.
  - plain. numbers. finish.
  - plain. numbers. finish.
  - plain. numbers. finish.
Qed.
Definition result (o : option rvalue) : outcome Empty_set (option rvalue) := match o with Some v => OK (Some v) | None => Panic end.
Lemma value_astray (label : bytes -> ptr -> Prop) refs t vals o : astray label t vals o -> d_value t refs vals = result o.
Proof.
  intros [t' a s rest Ht Hs|a x y rest Hx Hy|p l last rot Hn Hl|l ks Hg Hn|l ks Hg Hn|l ks Hg Hn|a b c d|v Hv]; cbn [result].
  - plain. destruct Ht as [<-|[<-|[<-|[]]]]; destruct Hs; reflexivity.
  - plain. apply normFloat64_spec in Hx. apply normFloat32_spec in Hy. subst x. subst y. finish.
  - apply singles_map in Hl. subst rot. destruct l as [|l1 [|l2 [|l3 [|l4 [|l5 [|l6 [|l7 [|l8 [|? ?]]]]]]]]]; try discriminate Hn. reflexivity.
  - inversion Hg as [|a b c l' k ks' H1 H2 H3 Hr]; subst; [cbn in Hn; lia|]. plain. destruct (single_key a _ H1) as [K _].
    unfold Declare.d_value. rewrite H. destruct a; try reflexivity. now destruct (K k0).
  - inversion Hg as [|a c l' k ks' H1 H2 Hr]; subst; [cbn in Hn; lia|]. plain. destruct (single_key a _ H1) as [_ K].
    unfold Declare.d_value. rewrite H. destruct a; try reflexivity. now destruct (K k0).
  - inversion Hg as [|a b c d e l' k ks' H1 Hr]; subst; [cbn in Hn; lia|]. destruct H1 as (H1 & _). plain. destruct (single_key a _ H1) as [_ K].
    unfold Declare.d_value. rewrite H. destruct a; try reflexivity. now destruct (K k0).
  - reflexivity.
  - assert (H : assertValue TypeColorSequence v = None).
    { destruct v as [| | | | | |v| | | |]; try reflexivity. unfold assertValue. destruct v; try reflexivity. now destruct (Hv ks). }
    unfold Declare.d_value. rewrite H. destruct v; reflexivity.
Qed.
(** The documented declarations are those two kinds; for a double that is not
    a number nothing is said. *)
Lemma documented_split (label : bytes -> ptr -> Prop) t vals v : documented label t vals v -> t <> TypeDouble ->
  as_documented t vals \/ exists o, astray label t vals o.
Proof.
  assert (K : forall t vals, ~ In t [TypeBinaryString; TypeProtectedString; TypeContent; TypeDouble; TypeCFrame; TypeRect; TypeNumberSequence; TypeColorSequence] ->
    as_documented t vals).
  { intros t0 vals0 H. cbn [In] in H. right. right. cbn [In]. split; [tauto|]. repeat split; intros ->; exfalso; apply H; tauto. }
  intros H Hd. destruct H; try (left; apply K; cbn [In]; clear; intros HH; repeat (destruct HH as [HH|HH]; [discriminate HH|]); exact HH).
  - left. right. left. eauto.
  - left. left. reflexivity.
  - right. eexists. apply as_text; [cbn; tauto|exact H].
  - right. eexists. apply as_text; [cbn; tauto|exact H].
  - right. eexists. apply as_text; [cbn; tauto|exact H].
  - now destruct Hd.
  - right. destruct l as [|l1 l] using rev_ind; [discriminate H|]. clear IHl. apply Forall2_app_inv_l in H0.
    destruct H0 as (r1 & r2 & R1 & R2 & ->). rewrite app_length in H. cbn [length] in H. eexists. apply as_cframe with (rot := r1); [lia|exact R1].
  - left. right. right. split; [cbn [In]; clear; intros HH; repeat (destruct HH as [HH|HH]; [discriminate HH|]); exact HH|]. cbn [length]. rewrite H. repeat split; discriminate.
  - left. right. right. split; [cbn [In]; clear; intros HH; repeat (destruct HH as [HH|HH]; [discriminate HH|]); exact HH|]. repeat split; try discriminate.
    destruct ks; [cbn in H; lia|]. intros _. cbn [map]. eauto.
  - right. eexists. eapply as_numbers3; eassumption.
  - left. right. right. split; [cbn [In]; clear; intros HH; repeat (destruct HH as [HH|HH]; [discriminate HH|]); exact HH|]. repeat split; try discriminate.
    destruct ks; [cbn in H; lia|]. intros _. cbn [map]. eauto.
  - right. eexists. eapply as_colors3; eassumption.
  - right. eexists. eapply as_colors5; eassumption.
  - right. eexists. apply as_rect.
  - left. right. right. split; [cbn [In]; clear; intros HH; repeat (destruct HH as [HH|HH]; [discriminate HH|]); exact HH|]. repeat split; discriminate.
Qed.
(** ** Panics and types *)
Lemma value_panics t refs vals : d_value t refs vals = Panic <->
  t = TypeColorSequence /\ exists v, vals = [v] /\ forall ks, v <> DValue (RColorSequence ks).
Proof.
  split.
  - unfold Declare.d_value. destruct vals as [|v0 rest]; [discriminate|]. destruct (assertValue t v0) eqn:A; [discriminate|].
    assert (T : forall mk, match v0 with DString s => OK (E := Empty_set) (Some (mk s : rvalue)) | DBytes s => OK (Some (mk s)) | _ => OK (NewValue t) end <> Panic) by (intros mk; destruct v0; discriminate).
    destruct (N.eqb_spec t TypeColorSequence) as [->|Hne].
    + change ((match v0, rest with DCSKey _, _ :: _ => OK (Some (RColorSequence (map as_cskey (v0 :: rest)))) | _, [] => Panic | _, _ => OK (E := Empty_set) (NewValue TypeColorSequence) end) = Panic -> TypeColorSequence = TypeColorSequence /\ exists v, v0 :: rest = [v] /\ forall ks, v <> DValue (RColorSequence ks)).
      intros H. split; [reflexivity|]. exists v0. destruct rest as [|r1 rest]; [|destruct v0; discriminate H]. split; [reflexivity|].
      intros ks ->. discriminate A.
    + repeat match goal with
      | |- (if ?b then _ else _) = Panic -> _ => destruct b; [intros H; exfalso; first
          [exact (T _ H) | discriminate H | (destruct v0; discriminate H) | (destruct v0, rest; discriminate H) | idtac]|]
      end; try discriminate;
      repeat match type of H with
      | (match ?l with [] => _ | _ :: _ => _ end) = Panic => destruct l; try discriminate H
      end.
  - intros [-> (v & -> & Hv)]. apply (value_astray (fun _ _ => False) refs TypeColorSequence [v] None). now constructor.
Qed.
(** A value of the declared type, except for the four types whose value is made
    with the wrong conversion. *)
Definition mistyped (t t' : Type_) : Prop :=
  In t [TypeBinaryString; TypeProtectedString; TypeContent] /\ t' = TypeString \/ t = TypeDouble /\ t' = TypeFloat.
Definition good_result (t : Type_) (o : outcome Empty_set (option rvalue)) : Prop :=
  o = Panic \/ o = OK (NewValue t) \/ exists v, o = OK (Some v) /\ (rtype v = t \/ mistyped t (rtype v)).
Lemma value_good t refs vals : good_result t (d_value t refs vals).
Proof.
  assert (GZ : good_result t (OK (NewValue t))) by (right; now left).
  assert (GP : good_result t Panic) by now left.
  assert (GV : forall v, rtype v = t -> good_result t (OK (Some v))) by (intros v Hv; right; right; exists v; split; [reflexivity|now left]).
  assert (GM : forall v, mistyped t (rtype v) -> good_result t (OK (Some v))) by (intros v Hv; right; right; exists v; split; [reflexivity|now right]).
  unfold Declare.d_value. destruct vals as [|v0 rest]; [exact GZ|]. destruct (assertValue t v0) as [r|] eqn:A.
  { apply GV. unfold assertValue in A. destruct v0; try discriminate. destruct (_ && _) eqn:E; [|discriminate]. injection A as <-. apply andb_prop in E as [_ E]. now apply N.eqb_eq in E. }
  clear A.
  assert (T : forall mk : bytes -> rvalue, (forall s, rtype (mk s) = t \/ mistyped t (rtype (mk s))) ->
    good_result t (match v0 with DString s => OK (Some (mk s)) | DBytes s => OK (Some (mk s)) | _ => OK (NewValue t) end)).
  { intros mk Hm. assert (forall s, good_result t (OK (Some (mk s)))) by (intros s; destruct (Hm s); auto). destruct v0; auto. }
  repeat match goal with
  | |- good_result _ (if (_ =? ?X)%N then _ else _) => destruct (N.eqb_spec t X) as [Ht|_]; [subst t|]
  end; cbv zeta;
  try exact GZ;
  try (apply T; intros s; first [left; reflexivity | right; left; split; [cbn [In]; tauto|reflexivity]]);
  repeat match goal with
  | |- good_result _ (OK (Some _)) => first [apply GV; reflexivity | apply GM; right; split; reflexivity]
  | |- good_result _ (OK (NewValue _)) => exact GZ
  | |- good_result _ Panic => exact GP
  | |- good_result _ (match ?l with [] => _ | _ :: _ => _ end) => destruct l
  | |- good_result _ (match v0 with _ => _ end) => destruct v0
  end.
Qed.
Lemma value_no_hang t refs vals : d_value t refs vals <> Hang.
Proof. destruct (value_good t refs vals) as [->|[->|(v & -> & _)]]; discriminate. Qed.
Lemma newvalue_type t v : NewValue t = Some v -> rtype v = t.
Proof.
  unfold NewValue. intros H.
  assert (G : forallb (fun tv => (rtype (snd tv) =? fst tv)%N) valueGenerators = true) by reflexivity.
  revert H G. generalize valueGenerators as l. induction l as [|[k x] l IH]; [discriminate|]. cbn [assocN forallb fst snd]. intros H G. apply andb_prop in G as [G1 G2].
  destruct (k =? t)%N eqn:E; [|now apply IH]. apply Some_eq in H. subst x. apply N.eqb_eq in E, G1. congruence.
Qed.
Lemma value_typed t refs vals r : NewValue t <> None -> d_value t refs vals = OK r -> exists v, r = Some v /\ (rtype v = t \/ mistyped t (rtype v)).
Proof.
  intros Hn E. destruct (value_good t refs vals) as [G|[G|(v & G & Hv)]]; rewrite E in G; [discriminate| |].
  - assert (r = NewValue t) by congruence. subst r. destruct (NewValue t) as [v|] eqn:Ev; [|now destruct Hn]. exists v. split; [reflexivity|]. left. now apply newvalue_type.
  - exists v. split; [congruence|exact Hv].
Qed.
(** ** The zero value *)
Lemma not_own t a : ~ own t a -> assertValue t a = None.
Proof.
  intros H. destruct a; try reflexivity. unfold assertValue. destruct (_ && _) eqn:E; [|reflexivity]. apply andb_prop in E as [_ E]. apply N.eqb_eq in E. destruct H. exists v. auto.
Qed.
Lemma number_dec a : number a \/ ~ number a.
Proof. destruct a; cbn; tauto. Qed.
Lemma norm_other {A} (i : Z -> A) a b c v : ~ number v -> norm i a b c v = c.
Proof. destruct v; cbn [number norm]; tauto. Qed.
Lemma value_zero t refs a rest : unaccepted t a rest -> ~ own t a -> d_value t refs (a :: rest) = OK (NewValue t).
Proof.
  intros H Ho. apply not_own in Ho. destruct H as [t ns a rest Hc Hn|t a rest Ht Hx|a rest Hx|t a rest Ht Hx|a rest Hx Hi|a rest Hx|a rest Hx Hr].
  - assert (Hin : In (t, ns) counts).
    { clear - Hc. revert Hc. generalize counts as l. induction l as [|[k x] l IH]; [discriminate|]. cbn [assocN]. destruct (N.eqb_spec k t) as [->|_].
      - intros E. apply Some_eq in E. subst. now left.
      - intros E. right. now apply IH. }
    clear Hc. cbn [counts In] in Hin. unfold Declare.d_value. rewrite Ho.
    repeat (destruct Hin as [Hin|Hin]; [injection Hin as <- <-|]); try contradiction;
      do 13 (destruct rest as [|? rest]; [try (exfalso; apply Hn; cbn; tauto); reflexivity|]); reflexivity.
  - unfold Declare.d_value. rewrite Ho. assert (a <> DString match a with DString s => s | _ => [] end) by (intros E; destruct a; try discriminate; now apply (Hx s); constructor).
    assert (a <> DBytes match a with DBytes s => s | _ => [] end) by (intros E; destruct a; try discriminate; now apply (Hx s); constructor).
    repeat (destruct Ht as [<-|Ht]; [destruct a; congruence || reflexivity|]). destruct Ht.
  - unfold Declare.d_value. rewrite Ho. destruct a; try reflexivity. now destruct (Hx b).
  - unfold Declare.d_value. rewrite Ho. repeat (destruct Ht as [<-|Ht]; [destruct a; cbn [number] in Hx; tauto || reflexivity|]). destruct Ht.
  - unfold Declare.d_value. rewrite Ho. destruct a; try reflexivity; try (exfalso; eapply Hx; constructor). now destruct (Hi p).
  - unfold Declare.d_value. rewrite Ho. destruct Hx as [Hx| ->]; [|destruct a; reflexivity]. destruct a; try (destruct rest; reflexivity). now destruct (Hx k).
  - unfold Declare.d_value. rewrite Ho. destruct rest as [|r rest]; [now destruct Hr|]. destruct a; try reflexivity. now destruct (Hx k).
Qed.
End Values.
