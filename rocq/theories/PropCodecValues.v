(** PropCodecValues.v - property theorems C24 and C25. *)
From Verif Require Import Base RbxlValues RbxlArrays RbxlModel RbxValues Tree RbxlCodec SpecValues SpecTree SpecCodec
  RbxlValuesProofs.

(** ** C25 *)
Lemma all_bytes (P : byte -> Prop) (f : byte -> bool) :
  (forall b, f b = true -> P b) ->
  forallb f (map (fun k => N2b (N.of_nat k)) (seq 0 256)) = true -> forall b, P b.
Proof.
  intros H1 H2 b. apply H1. rewrite forallb_forall in H2. apply H2.
  rewrite in_map_iff. exists (N.to_nat (b2N b)). rewrite N2Nat.id. split; [apply N2b_b2N|].
  apply in_seq. pose proof (b2N_lt b). lia.
Qed.
(** The table holds exactly what the generating rule gives: its entry for an
    id is the rule's matrix, and an absent entry is the rule's zero matrix. *)
Theorem C25_table_is_rule : forall b, special_matrix b = matrixFromID b.
Proof.
  apply (all_bytes _ (fun b => if list_eq_dec N.eq_dec (special_matrix b) (matrixFromID b) then true else false)).
  - intros b. destruct (list_eq_dec _ _ _); [auto|discriminate].
  - vm_compute. reflexivity.
Qed.
Lemma table_forall (f : byte -> bool) : forallb (fun e => f (fst e)) cframeSpecialMatrix = true ->
  forall b m, In (b, m) cframeSpecialMatrix -> f b = true.
Proof. intros H b m Hin. rewrite forallb_forall in H. exact (H _ Hin). Qed.
Theorem C25_table_domain : forall b,
  (exists m, In (b, m) cframeSpecialMatrix) <-> matrixFromID b <> repeat 0%N 9.
Proof.
  intros b. rewrite <- C25_table_is_rule. split.
  - intros [m Hm]. apply (table_forall (fun b => if list_eq_dec N.eq_dec (special_matrix b) (repeat 0%N 9) then false else true)
      ltac:(vm_compute; reflexivity)) in Hm.
    destruct (list_eq_dec N.eq_dec (special_matrix b) (repeat 0%N 9)); [discriminate|assumption].
  - intros Hne. unfold special_matrix in Hne.
    destruct (find _ _) as [[b' m]|] eqn:E; [|congruence].
    apply find_some in E. destruct E as [Hin Hb]. apply Byte.byte_dec_bl in Hb. cbn in Hb. subst b'. eauto.
Qed.

(** The 24 integer rotations. *)
Lemma unit_row a b c : (a * a + b * b + c * c = 1)%Z ->
  In (a, b, c) [(1, 0, 0); (-1, 0, 0); (0, 1, 0); (0, -1, 0); (0, 0, 1); (0, 0, -1)]%Z.
Proof.
  intros H. assert (Ha : (-1 <= a <= 1)%Z) by nia. assert (Hb : (-1 <= b <= 1)%Z) by nia.
  assert (Hc : (-1 <= c <= 1)%Z) by nia.
  assert (Ea : (a = -1 \/ a = 0 \/ a = 1)%Z) by lia. assert (Eb : (b = -1 \/ b = 0 \/ b = 1)%Z) by lia.
  assert (Ec : (c = -1 \/ c = 0 \/ c = 1)%Z) by lia.
  destruct Ea as [->|[->| ->]], Eb as [->|[->| ->]], Ec as [->|[->| ->]]; try discriminate H; cbn; tauto.
Qed.
Definition zbits (z : Z) : N := if (z =? 1)%Z then p1 else if (z =? -1)%Z then m1 else p0.
Definition rot_id (m : list Z) : option byte := special_number (map zbits m).
Definition units : list (list Z) := [[1; 0; 0]; [-1; 0; 0]; [0; 1; 0]; [0; -1; 0]; [0; 0; 1]; [0; 0; -1]]%Z.
Definition det (m : list Z) : Z :=
  match m with
  | [a; b; c; d; e; f; g; h; i] => (a * (e * i - f * h) - b * (d * i - f * g) + c * (d * h - e * g))%Z
  | _ => 0%Z
  end.
Definition candidates : list (list Z) :=
  filter (fun m => (det m =? 1)%Z) (flat_map (fun x => flat_map (fun y => map (fun z => x ++ y ++ z) units) units) units).
Lemma rotation_candidate m : is_rotation m -> In m candidates.
Proof.
  intros [a b c d e f g h i H1 H2 H3 _ _ _ Hd].
  apply unit_row in H1, H2, H3. unfold candidates. apply filter_In. split.
  - apply in_flat_map. exists [a; b; c]. split.
    + cbn in H1 |- *. intuition congruence.
    + apply in_flat_map. exists [d; e; f]. split.
      * cbn in H2 |- *. intuition congruence.
      * apply in_map_iff. exists [g; h; i]. split; [reflexivity|].
        cbn in H3 |- *. intuition congruence.
  - cbn [det]. now apply Z.eqb_eq.
Qed.
Lemma candidate_has_id m : In m candidates -> exists b, rot_id m = Some b /\ Forall2 float_is (special_matrix b) m.
Proof.
  intros H. assert (E : forallb (fun m => match rot_id m with
     | Some b => (length (special_matrix b) =? length m)%nat &&
         forallb (fun fz => if Z.eqb (snd fz) 1 then N.eqb (fst fz) p1 else if Z.eqb (snd fz) (-1) then N.eqb (fst fz) m1
                            else Z.eqb (snd fz) 0 && is_zero (fst fz)) (combine (special_matrix b) m)
     | None => false end) candidates = true) by (vm_compute; reflexivity).
  rewrite forallb_forall in E. specialize (E m H). destruct (rot_id m) as [b|]; [|discriminate].
  exists b. split; [reflexivity|]. apply andb_prop in E. destruct E as [El E]. apply Nat.eqb_eq in El.
  revert E El. generalize (special_matrix b) as l. revert m H. intros m _.
  induction m as [|z m IH]; intros [|f l] E El; try discriminate El; constructor.
  - cbn [combine forallb] in E. apply andb_prop in E. destruct E as [E _]. cbn [fst snd] in E. unfold float_is.
    destruct (Z.eqb_spec z 1) as [->|]; [left; split; [reflexivity|now apply N.eqb_eq]|].
    destruct (Z.eqb_spec z (-1)) as [->|]; [right; left; split; [reflexivity|now apply N.eqb_eq]|].
    apply andb_prop in E. destruct E as [Ez Ef]. apply Z.eqb_eq in Ez. right; right. split; [exact Ez|].
    unfold is_zero in Ef. apply orb_prop in Ef. destruct Ef as [Ef|Ef]; apply N.eqb_eq in Ef; [left|right]; exact Ef.
  - cbn [combine forallb] in E. apply andb_prop in E. injection El as El. now apply IH.
Qed.
Lemma feq32_float x f z : float_is f z -> feq32 x f = feq32 x (zbits z).
Proof.
  intros [[-> ->]|[[-> ->]|[-> [->| ->]]]]; try reflexivity.
  unfold feq32. cbn [zbits Z.eqb]. change (is_nan32 0x80000000) with false. change (is_nan32 p0) with false.
  f_equal. unfold p0. change (is_zero 2147483648) with true. change (is_zero 0) with true.
  unfold is_zero, p0, m0. destruct (N.eqb_spec x 0), (N.eqb_spec x 2147483648); subst; try reflexivity; cbn; try congruence.
Qed.
Lemma feqs_float l rot m : Forall2 float_is rot m -> feqs l rot = feqs l (map zbits m).
Proof.
  intros H. revert l. induction H as [|f z rot m Hf H IH]; intros [|x l]; cbn; auto.
  now rewrite (feq32_float x f z Hf), IH.
Qed.
Lemma find_ext {A} (f g : A -> bool) l : (forall a, f a = g a) -> find f l = find g l.
Proof. intros H. induction l as [|a l IH]; cbn; [reflexivity|]. now rewrite H, IH. Qed.
Lemma special_number_float rot m : Forall2 float_is rot m -> special_number rot = rot_id m.
Proof.
  intros H. unfold special_number, rot_id, special_number. f_equal. apply find_ext. intros e. now apply feqs_float.
Qed.
Definition fint (f : N) : Z := if N.eqb f p1 then 1%Z else if N.eqb f m1 then (-1)%Z else 0%Z.
Definition rot_check (l : list N) : bool :=
  forallb (fun f => N.eqb f p1 || N.eqb f m1 || is_zero f) l &&
  match map fint l with
  | [a; b; c; d; e; f; g; h; i] =>
      (a * a + b * b + c * c =? 1)%Z && (d * d + e * e + f * f =? 1)%Z && (g * g + h * h + i * i =? 1)%Z &&
      (a * d + b * e + c * f =? 0)%Z && (a * g + b * h + c * i =? 0)%Z && (d * g + e * h + f * i =? 0)%Z &&
      (a * (e * i - f * h) - b * (d * i - f * g) + c * (d * h - e * g) =? 1)%Z
  | _ => false
  end.
Lemma rot_check_spec l : rot_check l = true -> exists m, is_rotation m /\ Forall2 float_is l m.
Proof.
  unfold rot_check. rewrite andb_true_iff. intros [H1 H2]. exists (map fint l). split.
  - destruct (map fint l) as [|a [|b [|c [|d [|e [|f [|g [|h [|i [|]]]]]]]]]]; try discriminate.
    rewrite !andb_true_iff, !Z.eqb_eq in H2. constructor; tauto.
  - clear H2. induction l as [|f l IH]; constructor.
    + cbn [forallb] in H1. apply andb_prop in H1. destruct H1 as [H1 _]. unfold fint, float_is.
      destruct (N.eqb_spec f p1) as [->|]; [auto|]. destruct (N.eqb_spec f m1) as [->|]; [auto|].
      right; right. split; [reflexivity|]. cbn [orb] in H1. unfold is_zero in H1.
      apply orb_prop in H1. rewrite !N.eqb_eq in H1. exact H1.
    + apply IH. cbn [forallb] in H1. now apply andb_prop in H1.
Qed.
Lemma table_rotation b : matrixFromID b <> repeat 0%N 9 ->
  exists m, is_rotation m /\ Forall2 float_is (special_matrix b) m.
Proof.
  intros H. apply C25_table_domain in H. destruct H as [r H].
  apply (table_forall (fun b => rot_check (special_matrix b)) ltac:(vm_compute; reflexivity)) in H.
  now apply rot_check_spec.
Qed.
(** Every entry is a rotation of integers. *)
Theorem C25_entries_are_rotations : forall b, special_matrix b <> repeat 0%N 9 ->
  exists m, is_rotation m /\ Forall2 float_is (special_matrix b) m.
Proof. intros b H. apply table_rotation. now rewrite <- C25_table_is_rule. Qed.
(** A matrix of floats has an id exactly when it is such a rotation (with any
    signs of its zeros). *)
Lemma feq32_spec f g : feq32 f g = true -> same_float f g.
Proof.
  unfold feq32. rewrite !andb_true_iff, orb_true_iff, andb_true_iff. intros [_ [H|[H1 H2]]].
  - left. now apply N.eqb_eq.
  - right. unfold is_zero in *. rewrite orb_true_iff, !N.eqb_eq in *. auto.
Qed.
Lemma same_float_is f g z : same_float f g -> float_is f z -> float_is g z.
Proof. intros [->|[H1 H2]] Hf; [exact Hf|]. destruct Hf as [[-> ->]|[[-> ->]|[-> _]]]; try (destruct H1; discriminate). right; right; auto. Qed.
Lemma feqs_same l rot : feqs l rot = true -> Forall2 same_float l rot.
Proof.
  revert rot. induction l as [|f l IH]; intros [|g rot] H; try discriminate; constructor.
  - apply andb_prop in H. now apply feq32_spec.
  - apply andb_prop in H. now apply IH.
Qed.
Lemma special_number_inv rot b : special_number rot = Some b ->
  feqs (special_matrix b) rot = true /\ matrixFromID b <> repeat 0%N 9.
Proof.
  unfold special_number. destruct (find _ _) as [[r b']|] eqn:E; [|discriminate]. intros [= <-].
  apply find_some in E. destruct E as [Hin E]. cbn [fst] in E.
  unfold cframeSpecialNumber in Hin. apply in_map_iff in Hin. destruct Hin as (b0 & [= <- <-] & Hin).
  split; [exact E|]. clear E. cbn [In] in Hin.
  repeat match goal with H : _ \/ _ |- _ => destruct H as [H|H] | H : False |- _ => destruct H end; subst b0; vm_compute; discriminate.
Qed.
Theorem C25_id_iff_rotation : forall rot,
  (exists b, special_number rot = Some b) <-> exists m, is_rotation m /\ Forall2 float_is rot m.
Proof.
  intros rot. split.
  - intros [b H]. apply special_number_inv in H. destruct H as [H Hb].
    destruct (table_rotation b Hb) as (m & Hm & Hf). exists m. split; [exact Hm|].
    apply feqs_same in H. revert Hf H. generalize (special_matrix b) as l. clear. intros l Hf. revert rot.
    induction Hf as [|f z l m Hf Hl IH]; intros rot H; inversion H; subst; constructor; eauto using same_float_is.
  - intros (m & Hm & Hf). rewrite (special_number_float rot m Hf).
    destruct (candidate_has_id m (rotation_candidate m Hm)) as (b & Hb & _). eauto.
Qed.
(** The two directions agree: the id of a matrix has that matrix up to signs of
    zeros, and the matrix of an id has that id; so different ids have
    different matrices. *)
Theorem C25_lookups_agree : forall rot b,
  special_number rot = Some b <-> (special_matrix b <> repeat 0%N 9 /\ Forall2 same_float (special_matrix b) rot).
Proof.
  intros rot b. split.
  - intros H. apply special_number_inv in H. destruct H as [H Hb]. rewrite C25_table_is_rule at 1. split; [exact Hb|].
    now apply feqs_same.
  - intros [Hb H]. destruct (C25_entries_are_rotations b Hb) as (m & Hm & Hf).
    assert (Hf' : Forall2 float_is rot m).
    { revert H. revert Hf. generalize (special_matrix b) as l. clear. intros l Hf. revert rot.
      induction Hf as [|f z l m Hf Hl IH]; intros rot H; inversion H; subst; constructor; eauto using same_float_is. }
    rewrite (special_number_float rot m Hf'), <- (special_number_float _ m Hf).
    rewrite C25_table_is_rule in Hb. apply C25_table_domain in Hb. destruct Hb as [r Hr]. clear -Hr.
    apply (table_forall (fun b => match special_number (special_matrix b) with Some b' => Byte.eqb b' b | None => false end)
      ltac:(vm_compute; reflexivity)) in Hr.
    destruct (special_number _) as [b'|]; [|discriminate]. apply Byte.byte_dec_bl in Hr. now subst.
Qed.
Theorem C25_injective : forall b b', special_matrix b <> repeat 0%N 9 ->
  Forall2 same_float (special_matrix b) (special_matrix b') -> b = b'.
Proof.
  intros b b' Hb H. assert (Hs : special_number (special_matrix b') = Some b) by (apply C25_lookups_agree; auto).
  assert (Hb' : special_matrix b' <> repeat 0%N 9).
  { intros E. rewrite E in Hs. vm_compute in Hs. discriminate. }
  assert (Hs' : special_number (special_matrix b') = Some b').
  { apply C25_lookups_agree. split; [exact Hb'|]. clear. induction (special_matrix b'); constructor; [now left|assumption]. }
  congruence.
Qed.
Example C25_witness :
  special_number [p0; m1; p0; p1; m0; p0; m0; p0; p1] = Some x0a /\
  special_matrix x0a = [p0; m1; p0; p1; p0; m0; p0; p0; p1] /\
  special_number [p1; p0; p0; p0; p1; p0; p0; p0; m1] = None /\ special_matrix x01 = repeat 0%N 9.
Proof. vm_compute. auto. Qed.

(** ** C24 *)
Lemma same_float_refl l : Forall2 same_float l l.
Proof. induction l; constructor; [now left|assumption]. Qed.
Lemma special_nonzero rot b : special_number rot = Some b -> Byte.eqb b x00 = false.
Proof.
  intros H. apply special_number_inv in H. destruct H as [_ H]. destruct (Byte.eqb b x00) eqn:E; [|reflexivity].
  apply Byte.byte_dec_bl in E. subst b. exfalso. apply H. reflexivity.
Qed.
(** Converting a value to its binary form and back. *)
Theorem C24_value_roundtrip : forall q2m v, plain v ->
  exists b v', encodeValue v = Some b /\ decodeValue q2m b = Some v' /\ keeps v v'.
Proof.
  intros q2m v Hp. destruct v; try (destruct Hp; fail);
    try (eexists _, _; split; [reflexivity|split; [reflexivity|]]; constructor; exact I).
  - (* Ray *) destruct origin, direction. eexists _, _. split; [reflexivity|split; [reflexivity|]]. constructor; exact I.
  - (* CFrame *)
    cbn [encodeValue]. destruct (special_number rot) as [s|] eqn:E.
    + eexists _, _. split; [reflexivity|split; [reflexivity|]]. rewrite (special_nonzero _ _ E). constructor.
      apply C25_lookups_agree in E. destruct E as [_ E]. clear -E.
      induction E as [|x y l l' H E IH]; constructor; auto. destruct H as [->|[H1 H2]]; [now left|right; auto].
    + eexists _, _. split; [reflexivity|split; [reflexivity|]]. constructor. apply same_float_refl.
  - (* PhysicalProperties *) destruct custom; eexists _, _; (split; [reflexivity|split; [reflexivity|]]); constructor; exact I.
Qed.
(** The same through a file: [stored] is what the bytes keep of a value (C01). *)
Theorem C24_value_roundtrip_stored : forall q2m v, plain v ->
  exists b v', encodeValue v = Some b /\ decodeValue q2m (stored b) = Some v' /\ keeps_stored v v'.
Proof.
  intros q2m v Hp. destruct v; try (destruct Hp; fail);
    try (eexists _, _; split; [reflexivity|split; [reflexivity|]]; constructor; exact I).
  - destruct origin, direction. eexists _, _. split; [reflexivity|split; [reflexivity|]]. constructor; exact I.
  - cbn [encodeValue]. destruct (special_number rot) as [s|] eqn:E.
    + pose proof (special_nonzero _ _ E) as Hz.
      eexists _, _. split; [reflexivity|]. cbn [stored]. rewrite Hz. cbn [decodeValue]. rewrite Hz.
      split; [reflexivity|]. constructor.
      apply C25_lookups_agree in E. destruct E as [_ E]. clear -E.
      induction E as [|x y l l' H E IH]; constructor; auto. destruct H as [->|[H1 H2]]; [now left|right; auto].
    + eexists _, _. split; [reflexivity|split; [reflexivity|]]. constructor. apply same_float_refl.
  - destruct custom; eexists _, _; (split; [reflexivity|split; [reflexivity|]]); constructor; exact I.
Qed.
(** The other kinds of values have no conversion of their own. *)
Theorem C24_not_convertible : forall v, encodeValue v = None <-> ~ plain v.
Proof.
  intros v. split.
  - intros H Hp. destruct (C24_value_roundtrip (fun _ _ _ _ => []) v Hp) as (b & v' & E & _). congruence.
  - destruct v; cbn; intros H; try reflexivity; try (exfalso; apply H; exact I).
Qed.
(** The binary type of the result is the one registered for the value's type,
    and what can be held in memory can be written. *)
Theorem C24_type : forall v b, encodeValue v = Some b -> fromValueType (rtype v) = Some (vtype b).
Proof. intros v b. destruct v; cbn [encodeValue]; try discriminate; try (intros [= <-]; reflexivity). destruct (special_number rot); intros [= <-]; reflexivity. Qed.
Theorem C24_well_formed : forall v b, wf_rvalue v -> encodeValue v = Some b -> wf_value b.
Proof.
  intros v b Hw. destruct v; cbn [encodeValue]; try discriminate; try (intros [= <-]; exact Hw).
  - intros [= <-]. cbn in *. tauto.
  - intros [= <-]. destruct Hw as [[H1 [H2 H3]] [H4 [H5 H6]]]. cbn. auto 7.
  - destruct Hw as (H1 & H2 & H3). destruct (special_number rot); intros [= <-]; cbn; auto.
    split; [reflexivity|]. split; [|exact H1]. repeat constructor.
Qed.
(** Types correspond: converting a type there and back gives it again, with one
    string type, and CFrame for both binary CFrame types. *)
Theorem C24_types : forall t u, fromValueType t = Some u ->
  tid_value_type u = (if existsb (N.eqb t) [TypeBinaryString; TypeProtectedString; TypeContent] then TypeString else t).
Proof.
  intros t u H. unfold fromValueType, assocN in H.
  repeat match type of H with
  | (if (?k =? t)%N then _ else _) = _ => destruct (N.eqb_spec k t) as [<-|]; [injection H as <-; reflexivity|]
  end. discriminate.
Qed.
Theorem C24_types_back : forall u,
  fromValueType (tid_value_type u) = Some (match u with tCFrameQuat => tCFrame | u => u end).
Proof. intros []; reflexivity. Qed.
(** Re-encoding a decoded value changes nothing but: quaternions become
    matrices, unknown special ids become the zero matrix, rotation matrices
    that have an id get it, and the custom flag becomes 0 or 1. *)
Theorem C24_reencode : forall q2m b v, decodeValue q2m b = Some v ->
  match b with
  | VCFrame sp rot p =>
      encodeValue v = Some (if Byte.eqb sp x00
        then match special_number rot with Some s => VCFrame s (repeat 0%N 9) p | None => b end
        else if list_eq_dec N.eq_dec (special_matrix sp) (repeat 0%N 9) then VCFrame x00 (repeat 0%N 9) p
        else VCFrame sp (repeat 0%N 9) p)
  | VCFrameQuat _ _ _ _ _ p => exists sp rot, encodeValue v = Some (VCFrame sp rot p)
  | VPhysicalProperties c d f e fw ew =>
      encodeValue v = Some (VPhysicalProperties (if Byte.eqb c x00 then x00 else x01) d f e fw ew)
  | b => encodeValue v = Some b
  end.
Proof.
  intros q2m b v H. destruct b; cbn [decodeValue] in H; try discriminate; injection H as <-; try reflexivity.
  - cbn [encodeValue]. destruct (Byte.eqb special x00) eqn:E.
    + destruct (special_number rotation) eqn:Es; [reflexivity|].
      apply Byte.byte_dec_bl in E. now subst special.
    + destruct (list_eq_dec N.eq_dec (special_matrix special) (repeat 0%N 9)) as [Ez|Ez].
      * rewrite Ez. reflexivity.
      * assert (special_number (special_matrix special) = Some special) as ->; [|reflexivity].
        apply C25_lookups_agree. split; [exact Ez|apply same_float_refl].
  - cbn [encodeValue]. destruct (special_number _); eauto.
  - cbn [encodeValue]. now destruct (Byte.eqb custom x00).
Qed.
Example C24_witness :
  let v := RCFrame (Vec3 1 2 3) [p0; m1; p0; p1; m0; p0; m0; p0; p1] in
  plain v /\ encodeValue v = Some (VCFrame x0a (repeat 0%N 9) (Vec3 1 2 3)) /\
  decodeValue (fun _ _ _ _ => []) (VCFrame x0a (repeat 0%N 9) (Vec3 1 2 3))
    = Some (RCFrame (Vec3 1 2 3) [p0; m1; p0; p1; p0; m0; p0; p0; p1]) /\
  plain (RContent (str "rbxasset://x")) /\ wf_rvalue (RContent (str "rbxasset://x")).
Proof. vm_compute. auto. Qed.

Print Assumptions C25_table_is_rule.
Print Assumptions C25_table_domain.
Print Assumptions C25_entries_are_rotations.
Print Assumptions C25_id_iff_rotation.
Print Assumptions C25_lookups_agree.
Print Assumptions C25_injective.
Print Assumptions C24_value_roundtrip.
Print Assumptions C24_value_roundtrip_stored.
Print Assumptions C24_not_convertible.
Print Assumptions C24_type.
Print Assumptions C24_well_formed.
Print Assumptions C24_types.
Print Assumptions C24_types_back.
Print Assumptions C24_reencode.
