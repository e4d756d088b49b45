(** JsonRead.v - which JSON documents can be read. *)
From Coq Require Import Permutation.
From Verif Require Import Base RbxlValues RbxValues Tree RbxlCodec XmlText Ieee Json SpecValues SpecTree SpecCodec SpecJson TreeProofs
  JsonProofs RbxlFileProofs XmlTreeEnc JsonDec.

Definition oks {A} (o : jout A) : Prop := exists a, o = OK a.
Lemma oks_OK {A} (a : A) : oks (OK a) <-> True.
Proof. split; [easy|]. intros _. now exists a. Qed.
Lemma oks_Panic {A} : oks (Panic : jout A) <-> False.
Proof. split; [|easy]. intros [a H]. discriminate H. Qed.
Lemma oks_bind {A B} (o : jout A) (f : A -> jout B) Q : (forall a, oks (f a) <-> Q) -> oks (obind o f) <-> oks o /\ Q.
Proof.
  intros H. destruct o as [a|e| |]; cbn [obind].
  - rewrite H. split; [intros HQ; split; [now exists a|exact HQ]|tauto].
  - destruct e.
  - rewrite oks_Panic. split; [easy|]. intros [[b Hb] _]. discriminate Hb.
  - split; intros [[a Ha] _]||(intros [a Ha]); discriminate Ha.
Qed.
Lemma tame_oks {A} (o : jout A) : tame o -> (o = Panic <-> ~ oks o).
Proof.
  destruct o as [a| | |]; intros T; try contradiction; split; intros H; try discriminate H; try reflexivity.
  - exfalso. apply H. now exists a.
  - intros [b Hb]. discriminate Hb.
Qed.
(** ** Members *)
Definition has (m : list (bytes * jv)) (k : String.string) (n : need) : Prop := exists x, mfind m (str k) = Some x /\ meets n x.
Lemma oks_num m k : oks (num m k) <-> has m k NNumber.
Proof.
  unfold num, member, has. destruct (mfind m (str k)) as [[]|]; cbn [meets]; rewrite ?oks_OK, ?oks_Panic; split; try easy; try (intros (x & E & f' & H); congruence); intros _; eauto.
Qed.
Lemma oks_boolean m k : oks (boolean m k) <-> has m k NBool.
Proof.
  unfold boolean, member, has. destruct (mfind m (str k)) as [[]|]; cbn [meets]; rewrite ?oks_OK, ?oks_Panic; split; try easy; try (intros (x & E & f' & H); congruence); intros _; eauto.
Qed.
Lemma oks_num32 m k : oks (num32 m k) <-> has m k NNumber.
Proof. unfold num32. rewrite (oks_bind _ _ True) by (intros; apply oks_OK). rewrite oks_num. tauto. Qed.
Fixpoint hass (m : list (bytes * jv)) (ms : list (String.string * need)) : Prop :=
  match ms with [] => True | (k, n) :: ms => has m k n /\ hass m ms end.
Lemma meets_object ms v : meets (NObject ms) v <-> exists m, v = JObj m /\ hass m ms.
Proof.
  cbn [meets].
  assert (G : forall m, (fix all (ms0 : list (String.string * need)) : Prop :=
      match ms0 with [] => True | (k, n) :: ms1 => (exists x, mfind m (str k) = Some x /\ meets n x) /\ all ms1 end) ms <-> hass m ms).
  { intros m. induction ms as [|[k n] ms IH]; [reflexivity|]. cbn [hass]. unfold has at 1. rewrite IH. reflexivity. }
  split; intros (m & E & H); exists m; (split; [exact E|]); now apply G.
Qed.
Lemma meets_obj ms m : meets (NObject ms) (JObj m) <-> hass m ms.
Proof. rewrite meets_object. split; [intros (m' & E & H); injection E as <-; exact H|eauto]. Qed.
(** A reader of objects that gives nil for everything else. *)
Definition reads {A} (f : jv -> jout (option A)) (n : need) : Prop := (forall v, oks (must (f v)) <-> meets n v) /\ forall v a, f v = OK a -> a = None <-> has_kind v KObject = false.
Lemma oks_must_member {A} (f : jv -> jout (option A)) ms m k : reads f (NObject ms) -> oks (must (f (member m k))) <-> has m k (NObject ms).
Proof.
  intros [R _]. rewrite R. unfold member, has. destruct (mfind m (str k)) as [x|]; split; intros H.
  - eauto.
  - destruct H as (y & E & H). injection E as ->. exact H.
  - rewrite meets_object in H. destruct H as (m' & E & _). discriminate E.
  - destruct H as (y & E & H). discriminate E.
Qed.
Lemma reads_intro {A} (g : list (bytes * jv) -> jout A) ms : (forall m, oks (g m) <-> hass m ms) ->
  reads (fun v => match v with JObj m => a <- g m ;; OK (Some a) | _ => OK None end) (NObject ms).
Proof.
  intros H. split.
  - intros v. unfold must. rewrite meets_object. destruct v; cbn [obind]; try (rewrite oks_Panic; split; [easy|]; intros (m' & E & _); discriminate E).
    destruct (g m) as [a|e| |] eqn:E; cbn [obind].
    + rewrite oks_OK. split; [|easy]. intros _. exists m. split; [reflexivity|]. apply H. rewrite E. now exists a.
    + destruct e.
    + rewrite oks_Panic. split; [easy|]. intros (m' & E' & Hm). injection E' as <-. apply H in Hm. rewrite E in Hm. destruct Hm as [b Hb]. discriminate Hb.
    + split; [intros [b Hb]; discriminate Hb|]. intros (m' & E' & Hm). injection E' as <-. apply H in Hm. rewrite E in Hm. destruct Hm as [b Hb]. discriminate Hb.
  - intros v a. destruct v; intros E; try (injection E as <-; cbn; easy). destruct (g m); cbn [obind] in E; try discriminate E. injection E as <-. cbn. easy.
Qed.
Ltac okq :=
  lazymatch goal with
  | |- oks (OK _) <-> _ => apply oks_OK
  | |- oks Panic <-> _ => apply oks_Panic
  | |- oks (num32 _ _) <-> _ => apply oks_num32
  | |- oks (num _ _) <-> _ => apply oks_num
  | |- oks (boolean _ _) <-> _ => apply oks_boolean
  | |- oks (must (?f (member _ _))) <-> _ => eapply oks_must_member; eauto with reads
  | |- oks (obind _ _) <-> _ =>
      eapply iff_trans; [eapply oks_bind; let a := fresh in intros a; try (destruct a as [a ?]); try (destruct a as [a ?]); okq|apply and_iff_compat_r; okq]
  end.
Section Values.
Variable other : Z -> Z -> N -> Z.
Ltac by_intro g ms :=
  let R1 := fresh in let R2 := fresh in
  destruct (reads_intro g ms) as [R1 R2]; [intros ?; eapply iff_trans; [okq|cbn [hass]; reflexivity]|];
  match goal with |- reads ?f _ =>
    let E := fresh in
    assert (E : forall v, f v = match v with JObj m => a <- g m ;; OK (Some a) | _ => OK None end);
    [let v := fresh in intros v; destruct v; try reflexivity;
     repeat match goal with |- context[num32 ?m ?k] => destruct (num32 m k); cbn [obind]; try reflexivity | |- context[num ?m ?k] => destruct (num m k); cbn [obind]; try reflexivity end
    |split; [let v := fresh in intros v; rewrite E; apply R1|let v := fresh in intros v ?; rewrite E; apply R2]] end.
Lemma reads_udim : reads (from_udim other) n_udim.
Proof. unfold from_udim. by_intro (fun m : list (bytes * jv) => s <- num32 m "scale" ;; o <- num m "offset" ;; OK (s, to_i32 other o)) [("scale", NNumber); ("offset", NNumber)]%string. Qed.
Lemma reads_color3 : reads from_color3 n_color3.
Proof. unfold from_color3. by_intro (fun m : list (bytes * jv) => r <- num32 m "r" ;; g <- num32 m "g" ;; b <- num32 m "b" ;; OK (r, g, b)) [("r", NNumber); ("g", NNumber); ("b", NNumber)]%string. Qed.
Lemma reads_vec2 : reads from_vec2 n_vec2.
Proof. unfold from_vec2. by_intro (fun m : list (bytes * jv) => x <- num32 m "x" ;; y <- num32 m "y" ;; OK (x, y)) [("x", NNumber); ("y", NNumber)]%string. Qed.
Lemma reads_vec3 : reads from_vec3 n_vec3.
Proof. unfold from_vec3. by_intro (fun m : list (bytes * jv) => x <- num32 m "x" ;; y <- num32 m "y" ;; z <- num32 m "z" ;; OK (Vec3 x y z)) [("x", NNumber); ("y", NNumber); ("z", NNumber)]%string. Qed.
Hint Resolve reads_udim reads_color3 reads_vec2 reads_vec3 : reads.
Definition rotation_ok (t : Type_) (v : jv) : Prop :=
  forall m l, t = TypeCFrame -> v = JObj m -> mfind m (str "rotation") = Some (JArr l) -> Forall (fun x => exists f, x = JNum f) (firstn 9 l).
Definition keys_ok (T t : Type_) (n : need) (v : jv) : Prop := forall l m, t = T -> v = JArr l -> In (JObj m) l -> meets n (JObj m).
Lemma readable_simple t v : t <> TypeOptional -> readable t v <-> (has_kind v (kind_of t) = true ->
  (forall n, assocN needs t = Some n -> meets n v) /\ rotation_ok t v /\ keys_ok TypeNumberSequence t n_keypoint v /\ keys_ok TypeColorSequence t n_color_keypoint v).
Proof.
  intros Ht. split.
  - intros H Hk. destruct H as [t v H|t v _ _ H1 H2 H3 H4|m name|m name v]; [congruence|auto|now destruct Ht|now destruct Ht].
  - intros H. destruct (has_kind v (kind_of t)) eqn:Hk; [|now apply rd_ignored]. destruct (H eq_refl) as (H1 & H2 & H3 & H4). now apply rd_simple.
Qed.
(** The conditions for the types without special ones. *)
Lemma readable_plain t v n : t <> TypeOptional -> t <> TypeCFrame -> t <> TypeNumberSequence -> t <> TypeColorSequence ->
  assocN needs t = n -> readable t v <-> (has_kind v (kind_of t) = true -> match n with Some n => meets n v | None => True end).
Proof.
  intros H1 H2 H3 H4 Hn. rewrite (readable_simple t v H1). unfold rotation_ok, keys_ok. split; intros H Hk; specialize (H Hk).
  - destruct n as [n|]; [|exact I]. now apply H.
  - split; [intros n' Hn'; rewrite Hn' in Hn; subst n; exact H|]. split; [contradiction|]. split; contradiction.
Qed.
Lemma oks_rotation n : forall l, oks (Json.rotation n l) <-> Forall (fun x => exists f, x = JNum f) (firstn n l).
Proof.
  induction n as [|n IH]; intros [|x l]; cbn [Json.rotation firstn]; rewrite ?oks_OK; try (split; [intros _; constructor|easy]).
  destruct x; try (rewrite oks_Panic; split; [easy|]; intros H; inversion H as [|? ? [f' Hf] _]; discriminate Hf).
  rewrite (oks_bind _ _ True) by (intros; apply oks_OK). rewrite IH. split; [intros [H _]; constructor; eauto|intros H; inversion H; subst; now split].
Qed.
Lemma oks_each {A} (f : jv -> jout A) l : oks (each f l) <-> Forall (fun v => oks (f v)) l.
Proof.
  induction l as [|v l IH]; cbn [each]; [rewrite oks_OK; split; [intros _; constructor|easy]|].
  rewrite (oks_bind _ _ (oks (each f l) /\ True)) by (intros; rewrite (oks_bind _ _ True) by (intros; apply oks_OK); reflexivity).
  rewrite IH. split; [intros (H1 & H2 & _); now constructor|intros H; inversion H; subst; auto].
Qed.
Definition is_object (v : jv) (P : Prop) : Prop := match v with JObj _ => P | _ => True end.
Lemma oks_nskey v : oks (from_nskey v) <-> is_object v (meets n_keypoint v).
Proof.
  unfold from_nskey. destruct v; cbn [is_object]; rewrite ?oks_OK; try easy. eapply iff_trans; [okq|]. unfold n_keypoint, numbers. rewrite meets_obj. reflexivity.
Qed.
Lemma oks_cskey v : oks (from_cskey v) <-> is_object v (meets n_color_keypoint v).
Proof.
  unfold from_cskey. destruct v; cbn [is_object]; rewrite ?oks_OK; try easy. eapply iff_trans; [okq|]. unfold n_color_keypoint. rewrite meets_obj. reflexivity.
Qed.
Lemma keys_forall {A} (f : jv -> jout A) n l : (forall v, oks (f v) <-> is_object v (meets n v)) ->
  oks (each f l) <-> forall m, In (JObj m) l -> meets n (JObj m).
Proof.
  intros H. rewrite oks_each, Forall_forall. split.
  - intros G m Hm. specialize (G _ Hm). rewrite H in G. exact G.
  - intros G v Hv. rewrite H. destruct v; cbn [is_object]; auto.
Qed.
Definition spec_at (v : jv) (t : Type_) (r : jout (option rvalue)) : Prop :=
  (oks r <-> readable t v) /\ forall o, r = OK o -> o = None <-> has_kind v (kind_of t) = false.
(** A type that is read from one kind. *)
Lemma spec_plain v t r n : t <> TypeOptional -> t <> TypeCFrame -> t <> TypeNumberSequence -> t <> TypeColorSequence -> assocN needs t = n ->
  (if has_kind v (kind_of t) then (oks r <-> match n with Some n => meets n v | None => True end) /\ r <> OK None else r = OK None) -> spec_at v t r.
Proof.
  intros H1 H2 H3 H4 Hn H. split.
  - rewrite (readable_plain t v n H1 H2 H3 H4 Hn). destruct (has_kind v (kind_of t)).
    + destruct H as [H _]. rewrite H. split; [intros G _; exact G|intros G; exact (G eq_refl)].
    + subst r. rewrite oks_OK. split; [discriminate|easy].
  - intros o Ho. destruct (has_kind v (kind_of t)); [destruct H as [_ H]|]; split; intros E; try discriminate E; try reflexivity; congruence.
Qed.
Lemma bind_not_none {A} (o : jout A) (f : A -> rvalue) : (a <- o ;; OK (Some (f a))) <> OK None.
Proof. destruct o; discriminate. Qed.

Lemma spec_none v t : has_kind v (kind_of t) = false -> spec_at v t (OK None).
Proof. intros H. split; [rewrite oks_OK; split; [intros _; now apply rd_ignored|easy]|]. intros o E. injection E as <-. now rewrite H. Qed.
Lemma spec_leaf v t w : t <> TypeOptional -> t <> TypeCFrame -> t <> TypeNumberSequence -> t <> TypeColorSequence -> assocN needs t = None ->
  has_kind v (kind_of t) = true -> spec_at v t (OK (Some w)).
Proof. intros H1 H2 H3 H4 Hn Hk. apply (spec_plain v t _ None H1 H2 H3 H4 Hn). rewrite Hk, oks_OK. split; [easy|discriminate]. Qed.
Lemma spec_object m t r n : t <> TypeOptional -> t <> TypeCFrame -> t <> TypeNumberSequence -> t <> TypeColorSequence -> assocN needs t = Some (NObject n) ->
  kind_of t = KObject -> (oks r <-> hass m n) -> r <> OK None -> spec_at (JObj m) t r.
Proof. intros H1 H2 H3 H4 Hn Hk Hr Hr'. apply (spec_plain _ t _ _ H1 H2 H3 H4 Hn). rewrite Hk. cbn [has_kind]. rewrite meets_obj. now split. Qed.
Ltac nexttype t := match goal with |- spec_at _ t (if (t =? ?T)%N then _ else _) => destruct (N.eqb_spec t T) as [->|?] end.
Ltac easy_case := first [apply spec_none; reflexivity | apply spec_leaf; [discriminate|discriminate|discriminate|discriminate|reflexivity|reflexivity]].
Lemma map_not_none {A} (o : jout (option A)) (f : A -> rvalue) : o <> OK None -> (a <- o ;; OK (option_map f a)) <> OK None.
Proof. destruct o as [[a|]| | |]; cbn; congruence. Qed.
Ltac obj_case := eapply spec_object; [discriminate|discriminate|discriminate|discriminate|reflexivity|reflexivity| |apply bind_not_none];
  eapply iff_trans; [okq|cbn [hass map]; rewrite ?and_assoc; try tauto].
Lemma no_kind t : assocN kinds t = None -> forall v, has_kind v (kind_of t) = false.
Proof. intros H v. unfold kind_of. rewrite H. reflexivity. Qed.
Ltac no_type := apply spec_none, no_kind; unfold kinds; cbn [assocN]; repeat match goal with H : ?t <> ?T |- context[(?T =? ?t)%N] => rewrite (proj2 (N.eqb_neq T t) (not_eq_sym H)); clear H end; reflexivity.
Lemma optional_value m : 
  (match member m "type" with
        | JStr n =>
            let t := type_of_name n in
            (fix value (m : list (bytes * jv)) := match m with
             | [] => OK (Some (mkNone t))
             | (k, v) :: m =>
                 if bytes_eqb k (str "value") then
                   match v with
                   | JNull => OK (Some (mkNone t))
                   | v => r <- ValueFromJSON other v t ;; match r with Some r => OK (Some (mkSome r)) | None => Panic end
                   end
                 else value m
             end) m
        | _ => Panic
        end : jout (option rvalue)) =
  match member m "type" with
  | JStr n =>
      match mfind m (str "value") with
      | None | Some JNull => OK (Some (mkNone (type_of_name n)))
      | Some v => r <- ValueFromJSON other v (type_of_name n) ;; match r with Some r => OK (Some (mkSome r)) | None => Panic end
      end
  | _ => Panic
  end.
Proof.
  destruct (member m "type"); try reflexivity. cbv zeta. induction m as [|[k v] m IHm]; [reflexivity|]. cbn [mfind].
  destruct (bytes_eqb k (str "value")); [now destruct v|exact IHm].
Qed.
Lemma value_spec v : forall t, spec_at v t (ValueFromJSON other v t).
Proof.
  induction v as [|b|f|st|l IH|m IH|t0] using jv_ind2; intros t; cbn [ValueFromJSON]; cbv zeta.
  1-4,7: repeat (nexttype t; [easy_case|]); no_type.
  - repeat (nexttype t; [easy_case|]).
    nexttype t.
    { split.
      - rewrite (oks_bind _ _ True) by (intros; apply oks_OK). rewrite (keys_forall _ n_keypoint) by apply oks_nskey.
        rewrite readable_simple by discriminate. split.
        + intros [H _] _. split; [discriminate|]. split; [intros m l' E; discriminate E|]. split; [|intros l' m E; discriminate E].
          intros l' m _ E Hin. injection E as <-. now apply H.
        + intros H. split; [|exact I]. intros m Hin. destruct (H eq_refl) as (_ & _ & H3 & _). exact (H3 l m eq_refl eq_refl Hin).
      - intros o E. destruct (each from_nskey l); try discriminate E. injection E as <-. split; discriminate. }
    nexttype t.
    { split.
      - rewrite (oks_bind _ _ True) by (intros; apply oks_OK). rewrite (keys_forall _ n_color_keypoint) by apply oks_cskey.
        rewrite readable_simple by discriminate. split.
        + intros [H _] _. split; [discriminate|]. split; [intros m l' E; discriminate E|]. split; [intros l' m E; discriminate E|].
          intros l' m _ E Hin. injection E as <-. now apply H.
        + intros H. split; [|exact I]. intros m Hin. destruct (H eq_refl) as (_ & _ & _ & H4). exact (H4 l m eq_refl eq_refl Hin).
      - intros o E. destruct (each from_cskey l); try discriminate E. injection E as <-. split; discriminate. }
    repeat (nexttype t; [easy_case|]). no_type.
  - do 8 (nexttype t; [easy_case|]).
    nexttype t. { eapply spec_object; [discriminate|discriminate|discriminate|discriminate|reflexivity|reflexivity| |]; unfold from_udim; [eapply iff_trans; [okq|cbn [hass map]; tauto]|]. apply map_not_none. destruct (num32 m "scale"); try discriminate. destruct (num m "offset"); discriminate. }
    do 4 (nexttype t; [obj_case|]). nexttype t; [easy_case|].
    nexttype t. { eapply spec_object; [discriminate|discriminate|discriminate|discriminate|reflexivity|reflexivity| |]; unfold from_color3; [eapply iff_trans; [okq|cbn [hass map]; tauto]|]. apply map_not_none. destruct (num32 m "r"); try discriminate. destruct (num32 m "g"); try discriminate. destruct (num32 m "b"); discriminate. }
    nexttype t. { eapply spec_object; [discriminate|discriminate|discriminate|discriminate|reflexivity|reflexivity| |]; unfold from_vec2; [eapply iff_trans; [okq|cbn [hass map]; tauto]|]. apply map_not_none. destruct (num32 m "x"); try discriminate. destruct (num32 m "y"); discriminate. }
    nexttype t. { eapply spec_object; [discriminate|discriminate|discriminate|discriminate|reflexivity|reflexivity| |]; unfold from_vec3; [eapply iff_trans; [okq|cbn [hass map]; tauto]|]. apply map_not_none. destruct (num32 m "x"); try discriminate. destruct (num32 m "y"); try discriminate. destruct (num32 m "z"); discriminate. }
    nexttype t.
    { split.
      - eapply iff_trans.
        { eapply oks_bind. intros. apply oks_OK. }
        eapply iff_trans.
        { apply and_iff_compat_r. eapply (oks_bind _ _ (match member m "rotation" with JArr l => Forall (fun x => exists f, x = JNum f) (firstn 9 l) | _ => True end)). intros p.
          destruct (member m "rotation"); try apply oks_OK. eapply iff_trans; [apply (oks_bind _ _ True); intros; apply oks_OK|]. rewrite oks_rotation. tauto. }
        rewrite (oks_must_member from_vec3 _ m "position" reads_vec3). rewrite readable_simple by discriminate. split.
        + intros [[H1 H2] _] _. split; [intros nn E; injection E as <-; rewrite meets_obj; now split|]. split; [|split; intros l m' E; discriminate E].
          intros m' l _ E Hl. injection E as <-. unfold member in H2. rewrite Hl in H2. exact H2.
        + intros H. destruct (H eq_refl) as (H1 & H2 & _). specialize (H1 _ eq_refl). rewrite meets_obj in H1. split; [|exact I]. split; [apply H1|].
          unfold member. destruct (mfind m (str "rotation")) as [[]|] eqn:E; try exact I. exact (H2 m l eq_refl eq_refl E).
      - intros o E. match type of E with obind ?a _ = _ => destruct a; try discriminate E end. injection E as <-. split; discriminate. }
    do 2 (nexttype t; [easy_case|]). do 2 (nexttype t; [obj_case|]). do 2 (nexttype t; [easy_case|]). do 4 (nexttype t; [obj_case|]). do 2 (nexttype t; [easy_case|]).
    nexttype t; [|no_type]. rewrite optional_value. unfold member. destruct (mfind m (str "type")) as [j|] eqn:Et.
    2:{ split; [|discriminate]. rewrite oks_Panic. split; [easy|]. intros H. inversion H; subst; try discriminate; congruence. }
    destruct j; try (split; [|discriminate]; rewrite oks_Panic; split; [easy|]; intros H; inversion H; subst; try discriminate; congruence).
    destruct (mfind m (str "value")) as [x|] eqn:Ev.
    2:{ split; [rewrite oks_OK; split; [intros _; eapply rd_none; eauto|easy]|]. intros o E. injection E as <-. split; discriminate. }
    assert (Hx : forall t, spec_at x t (ValueFromJSON other x t)) by (apply mfind_In in Ev; rewrite Forall_forall in IH; exact (IH _ Ev)).
    destruct (Hx (type_of_name s)) as [S1 S2].
    assert (D : x = JNull \/ x <> JNull) by (destruct x; auto; right; discriminate).
    destruct D as [->|D]; [split; [rewrite oks_OK; split; [intros _; eapply rd_none; eauto|easy]|]; intros o E; injection E as <-; split; discriminate|].
    replace (match x with JNull => _ | _ => _ end) with (r <- ValueFromJSON other x (type_of_name s);; match r with Some r0 => OK (Some (mkSome r0)) | None => Panic end) by (destruct x; congruence || reflexivity).
    split.
    + split.
      * intros [a Ha]. destruct (ValueFromJSON other x (type_of_name s)) as [[r|]| | |] eqn:E; try discriminate Ha.
        eapply rd_some; [exact Et|exact Ev|exact D| |apply S1; eexists; reflexivity].
        destruct (has_kind x (kind_of (type_of_name s))) eqn:Ek; [reflexivity|]. pose proof (proj2 (S2 _ eq_refl) eq_refl) as G. discriminate G.
      * intros H. inversion H as [? ? Hk|? ? Ho|? ? Et' Ev'|? ? ? Et' Ev' Hn Hk Hr]; subst.
        -- discriminate Hk.
        -- now destruct Ho.
        -- destruct Ev' as [Ev'|Ev']; congruence.
        -- rewrite Et in Et'. rewrite Ev in Ev'. injection Et' as ->. injection Ev' as ->. apply S1 in Hr. destruct Hr as [r Hr]. rewrite Hr. cbn [obind].
           destruct r as [r|]; [eexists; reflexivity|]. pose proof (proj1 (S2 _ Hr) eq_refl) as G. congruence.
    + intros o E. destruct (ValueFromJSON other x (type_of_name s)) as [[r|]| | |]; try discriminate E. injection E as <-. split; discriminate.
Qed.

(** ** Instances *)
Variable ord : list (bytes * jv) -> list (bytes * jv).
Hypothesis Hord : any_members ord.
Definition there (h : heap) (p : ptr) : Prop := exists i, hget h p = Some i.
Definition valid (s : jdst) : Prop := forall r q, mfind (jd_refs s) r = Some q -> there (jd_heap s) q.
Lemma there_hset h p i q : there h q -> there (hset h p i) q.
Proof. intros [j Hj]. unfold there. rewrite hget_hset. destruct (Nat.eqb_spec q p) as [->|]; [rewrite Hj; cbn; eauto|eauto]. Qed.
Lemma valid_update s p f : valid s -> valid (update s p f).
Proof. intros H r q. unfold update. destruct (hget (jd_heap s) p); cbn [jd_refs jd_heap]; intros Hq; [apply there_hset|]; eauto. Qed.
Lemma there_update s p f q : there (jd_heap s) q -> there (jd_heap (update s p f)) q.
Proof. intros H. unfold update. destruct (hget (jd_heap s) p); [now apply there_hset|exact H]. Qed.
Lemma there_app h l q : there h q -> there (h ++ l) q.
Proof. intros [i Hi]. exists i. rewrite hget_app; [exact Hi|]. apply hget_some in Hi. lia. Qed.
Lemma inst_for_valid v s p s' : valid s -> inst_for v s = (p, s') -> valid s' /\ there (jd_heap s') p.
Proof.
  intros Hs H. unfold inst_for in H. set (ref := match index_obj v "reference" with Some (JStr r) => r | _ => [] end) in *. destruct (IsEmptyReference ref).
  - injection H as <- <-. split; [|eexists; apply hget_new]. intros r q Hq. cbn [jd_heap jd_refs] in *. apply there_app. eauto.
  - destruct (mfind (jd_refs s) ref) as [q0|] eqn:E.
    + injection H as <- <-. split; [exact Hs|eauto].
    + injection H as <- <-. split; [|eexists; apply hget_new]. intros r q Hq. cbn [jd_heap jd_refs] in *. rewrite mfind_mset in Hq.
      destruct (beqb_spec ref r); [injection Hq as <-; eexists; apply hget_new|apply there_app; eauto].
Qed.
Definition prop_fine (nv : bytes * jv) : Prop :=
  forall pm t x, snd nv = JObj pm -> mfind pm (str "type") = Some (JStr t) -> mfind pm (str "value") = Some x -> readable (type_of_name t) x.
Lemma reference_string x v : ValueFromJSON other x TypeReference = OK (Some v) -> exists r, v = RString r.
Proof. destruct x; intros H; try discriminate H. exists s. now injection H as <-. Qed.
Lemma prop_oks p s nv : there (jd_heap s) p -> oks (prop_from_json other p s nv) <-> prop_fine nv.
Proof.
  intros [i Hi]. unfold prop_from_json, prop_fine. destruct (snd nv) as [| | | | |pm|]; cbn [index_obj]; try (rewrite oks_OK; split; [intros _ ? ? ? E; discriminate E|easy]).
  destruct (mfind pm (str "type")) as [ty|] eqn:Et; [|rewrite oks_OK; split; [intros _ pm' t x E Ht; injection E as <-; congruence|easy]].
  destruct ty; try (rewrite oks_OK; split; [intros _ pm' t' x E Ht; injection E as <-; congruence|easy]).
  destruct (mfind pm (str "value")) as [x|] eqn:Ev; [|rewrite oks_OK; split; [intros _ pm' t x E Ht Hx; injection E as <-; congruence|easy]].
  destruct (value_spec x (type_of_name s0)) as [S1 S2]. transitivity (readable (type_of_name s0) x).
  - rewrite <- S1. split.
    + intros [a Ha]. destruct (ValueFromJSON other x (type_of_name s0)); try discriminate Ha. eexists; reflexivity.
    + intros [a Ha]. rewrite Ha. cbn [obind]. destruct a as [v|]; [|now apply oks_OK]. destruct (N.eqb_spec (type_of_name s0) TypeReference) as [E|_].
      * rewrite E in Ha. destruct (reference_string x v Ha) as [r ->]. now apply oks_OK.
      * rewrite Hi. now apply oks_OK.
  - split; [|intros H; exact (H pm s0 x eq_refl Et Ev)]. intros H pm' t' x' E Ht Hx. injection E as <-. rewrite Et in Ht. rewrite Ev in Hx. injection Ht as <-. injection Hx as <-. exact H.
Qed.
Lemma prop_valid p s nv s' : there (jd_heap s) p -> valid s -> prop_from_json other p s nv = OK s' -> there (jd_heap s') p /\ valid s'.
Proof.
  intros Hp Hs H. unfold prop_from_json in H. destruct (index_obj (snd nv) "type") as [[]|]; try (injection H as <-; now split).
  destruct (index_obj (snd nv) "value") as [x|]; [|injection H as <-; now split].
  destruct (ValueFromJSON other x _) as [[v|]| | |]; try discriminate H; cbn [obind] in H; [|injection H as <-; now split].
  destruct (_ =? _)%N; [destruct v; try discriminate H; injection H as <-; now split|].
  destruct (hget (jd_heap s) p) eqn:E; [|discriminate H]. injection H as <-. split; [cbn [jd_heap]; now apply there_hset|].
  intros r q Hq. cbn [jd_heap jd_refs] in *. apply there_hset. eauto.
Qed.
Lemma props_oks p l : forall s, there (jd_heap s) p -> valid s -> oks (props_from_json other p l s) <-> Forall prop_fine l.
Proof.
  induction l as [|nv l IH]; intros s Hp Hs; cbn [props_from_json]; [rewrite oks_OK; split; [constructor|easy]|].
  pose proof (prop_oks p s nv Hp) as G. destruct (prop_from_json other p s nv) as [s1|e| |] eqn:E; cbn [obind].
  - destruct (prop_valid p s nv s1 Hp Hs E) as [Hp1 Hs1]. rewrite (IH s1 Hp1 Hs1). rewrite oks_OK in G. split; [intros H; constructor; [now apply G|exact H]|intros H; now inversion H].
  - destruct e.
  - rewrite oks_Panic in *. split; [easy|]. intros H. inversion H; subst. tauto.
  - split; [intros [a Ha]; discriminate Ha|]. intros H. inversion H; subst. destruct (proj2 G H2) as [a Ha]. discriminate Ha.
Qed.
Lemma props_valid p l : forall s s', there (jd_heap s) p -> valid s -> props_from_json other p l s = OK s' -> there (jd_heap s') p /\ valid s'.
Proof.
  induction l as [|nv l IH]; intros s s' Hp Hs H; cbn [props_from_json] in H; [injection H as <-; now split|].
  destruct (prop_from_json other p s nv) as [s1| | |] eqn:E; try discriminate H. destruct (prop_valid p s nv s1 Hp Hs E). now apply (IH s1).
Qed.
Lemma not_inst_step c s : is_inst c = false -> valid s -> exists s', InstanceFromJSON other ord c s = OK (None, s') /\ valid s'.
Proof.
  intros Hc Hs. rewrite inst_step. destruct (inst_for c s) as [p s1] eqn:E. destruct (inst_for_valid c s p s1 Hs E) as [Hs1 _]. exists s1. split; [|exact Hs1].
  unfold is_inst in Hc. destruct (index_obj c "class_name") as [[]|]; reflexivity || discriminate Hc.
Qed.
Lemma kids_oks p l : forall s, valid s -> oks (kids other ord p l s) <-> Forall (fun c => is_inst c = false) l.
Proof.
  induction l as [|c l IH]; intros s Hs; cbn [kids]; [rewrite oks_OK; split; [constructor|easy]|]. destruct (is_inst c) eqn:E.
  - split; [|intros H; inversion H; congruence]. intros [a Ha]. destruct (InstanceFromJSON other ord c s) as [[[q|] s1]| | |] eqn:E1; try discriminate Ha.
    destruct (inst_some other ord c s None s1 E1) as [_ G]. destruct (G E) as [q Hq]. discriminate Hq.
  - destruct (not_inst_step c s E Hs) as (s1 & E1 & Hs1). rewrite E1. cbn [obind]. rewrite (IH s1 Hs1). split; [intros H; now constructor|intros H; now inversion H].
Qed.
Lemma is_inst_iff v : is_inst v = true <-> instance_object v.
Proof.
  unfold is_inst, instance_object. destruct v; cbn [index_obj]; try (split; [discriminate|intros (m & c & E & _); discriminate E]).
  destruct (mfind m (str "class_name")) as [[]|] eqn:E; split; try discriminate; try (intros (m' & c & E' & H); injection E' as <-; congruence); intros _; eauto.
Qed.
Lemma inst_oks v s : valid s -> oks (InstanceFromJSON other ord v s) <-> ~ breaks v.
Proof.
  intros Hs. destruct (is_inst v) eqn:Ei.
  2:{ destruct (not_inst_step v s Ei Hs) as (s1 & E1 & _). rewrite E1, oks_OK. split; [|easy]. intros _ [H _]. apply is_inst_iff in H. congruence. }
  pose proof (proj1 (is_inst_iff v) Ei) as (m & class & -> & Hc). rewrite inst_step. destruct (inst_for (JObj m) s) as [p s1] eqn:E.
  destruct (inst_for_valid _ s p s1 Hs E) as [Hs1 Hp1]. cbn [index_obj]. rewrite Hc.
  set (s2 := update s1 p _). assert (Hs2 : valid s2) by now apply valid_update. assert (Hp2 : there (jd_heap s2) p) by now apply there_update.
  assert (HU : Forall prop_fine (ord (props_of (JObj m))) <-> ~ unreadable_prop (JObj m)).
  { unfold props_of. cbn [index_obj]. destruct (mfind m (str "properties")) as [[| | | | |ps|]|] eqn:Ep;
      try (split; [intros _ (m' & ps' & ? & ? & ? & ? & Em & Hps & _); injection Em as <-; congruence|intros _; eapply Permutation_Forall; [apply Hord|constructor]]).
    split.
    - intros H (m' & ps' & name & pm & t & x & Em & Hps & Hin & Ht & Hx & Hr). injection Em as <-. rewrite Ep in Hps. injection Hps as <-. apply Hr.
      rewrite Forall_forall in H. apply (H (name, JObj pm)) with pm; [|reflexivity|exact Ht|exact Hx]. eapply Permutation_in; [apply Hord|exact Hin].
    - intros H. eapply Permutation_Forall; [apply Hord|]. apply Forall_forall. intros [name jp] Hin pm t x Ej Ht Hx. cbn [snd] in Ej. subst jp.
      destruct (value_spec x (type_of_name t)) as [S1 _]. pose proof (tame_value other x (type_of_name t)) as T.
      destruct (ValueFromJSON other x (type_of_name t)) as [a| | |] eqn:EV; try contradiction; [apply S1; now exists a|].
      exfalso. apply H. exists m, ps, name, pm, t, x. repeat (split; [assumption || reflexivity|]). intros Hr. apply S1 in Hr. destruct Hr as [a Ha]. discriminate Ha. }
  pose proof (props_oks p (ord (props_of (JObj m))) s2 Hp2 Hs2) as GP.
  assert (HI : instance_object (JObj m)) by (exists m, class; now split).
  destruct (props_from_json other p (ord (props_of (JObj m))) s2) as [s3|e| |] eqn:E3; cbn [obind].
  - assert (HU' : ~ unreadable_prop (JObj m)) by (apply HU, GP; now exists s3).
    destruct (props_valid _ _ _ _ Hp2 Hs2 E3) as [Hp3 Hs3]. assert (Hs4 : valid (update s3 p no_kids)) by now apply valid_update.
    cbv zeta. destruct (mfind m (str "children")) as [[| | | |l| |]|] eqn:Ec;
      try (rewrite oks_OK; split; [intros _ [_ [H|(m' & l & c & Em & Hl & _)]]; [now apply HU'|injection Em as <-; congruence]|easy]).
    rewrite (kids_oks p l _ Hs4). split.
    + intros H [_ [H'|(m' & l' & c & Em & Hl & Hin & Hc')]]; [now apply HU'|]. injection Em as <-. rewrite Ec in Hl. injection Hl as <-.
      rewrite Forall_forall in H. specialize (H c Hin). apply is_inst_iff in Hc'. congruence.
    + intros H. apply Forall_forall. intros c Hin. destruct (is_inst c) eqn:Eic; [|reflexivity]. exfalso. apply H. split; [exact HI|]. right. exists m, l, c.
      repeat (split; [assumption || reflexivity|]). now apply is_inst_iff.
  - destruct e.
  - split; [now rewrite oks_Panic|]. intros H. exfalso. rewrite oks_Panic in GP.
    apply GP. apply HU. intros HB. apply H. split; [exact HI|now left].
  - split; [intros [a Ha]; discriminate Ha|]. intros H. exfalso.
    enough (G : oks (Hang : jout jdst)) by (destruct G as [a Ha]; discriminate Ha).
    apply GP. apply HU. intros HB. apply H. split; [exact HI|now left].
Qed.
Lemma kids_valid p l : forall s r s', valid s -> kids other ord p l s = OK (r, s') -> valid s'.
Proof.
  induction l as [|c l IH]; intros s r s' Hs H; cbn [kids] in H; [injection H as _ <-; exact Hs|].
  destruct (InstanceFromJSON other ord c s) as [[[q|] s1]| | |] eqn:E; try discriminate H. cbn [obind] in H.
  assert (Ec : is_inst c = false).
  { destruct (is_inst c) eqn:Ec; [|reflexivity]. destruct (inst_some other ord c s None s1 E) as [_ G]. destruct (G Ec) as [q Hq]. discriminate Hq. }
  destruct (not_inst_step c s Ec Hs) as (s2 & E2 & Hs2). rewrite E in E2. injection E2 as <-. now apply (IH s1 r).
Qed.
Lemma inst_valid v s r s' : valid s -> InstanceFromJSON other ord v s = OK (r, s') -> valid s'.
Proof.
  intros Hs H. rewrite inst_step in H. destruct (inst_for v s) as [p s1] eqn:E. destruct (inst_for_valid v s p s1 Hs E) as [Hs1 Hp1].
  destruct (index_obj v "class_name") as [[]|]; try (injection H as _ <-; exact Hs1).
  destruct (props_from_json other p _ _) as [s2| | |] eqn:E2; try discriminate H. cbn [obind] in H. cbv zeta in H.
  apply props_valid in E2; [|now apply there_update|now apply valid_update]. destruct E2 as [_ Hs2].
  assert (Hs3 : valid (update s2 p no_kids)) by now apply valid_update.
  destruct (index_obj v "children") as [[]|]; try (injection H as _ <-; exact Hs3). now apply kids_valid in H.
Qed.
Lemma insts_oks l : forall s, valid s -> oks (insts_from_json other ord l s) <-> Forall (fun v => ~ breaks v) l.
Proof.
  induction l as [|v l IH]; intros s Hs; cbn [insts_from_json]; [rewrite oks_OK; split; [constructor|easy]|].
  pose proof (inst_oks v s Hs) as G. destruct (InstanceFromJSON other ord v s) as [[r s1]|e| |] eqn:E; cbn [obind].
  - pose proof (inst_valid v s r s1 Hs E) as Hs1. rewrite oks_OK in G. specialize (IH s1 Hs1).
    destruct (insts_from_json other ord l s1) as [[ps s2]|e| |]; cbn [obind].
    + rewrite oks_OK in IH. rewrite oks_OK. split; [intros _; constructor; tauto|easy].
    + destruct e.
    + rewrite oks_Panic. split; [easy|]. intros H. apply Forall_cons_iff in H as [_ H]. destruct (proj2 IH H) as [a Ha]. discriminate Ha.
    + split; [intros [a Ha]; discriminate Ha|]. intros H. apply Forall_cons_iff in H as [_ H]. destruct (proj2 IH H) as [a Ha]. discriminate Ha.
  - destruct e.
  - rewrite oks_Panic. split; [easy|]. intros H. apply Forall_cons_iff in H as [H _]. destruct (proj2 G H) as [a Ha]. discriminate Ha.
  - split; [intros [a Ha]; discriminate Ha|]. intros H. apply Forall_cons_iff in H as [H _]. destruct (proj2 G H) as [a Ha]. discriminate Ha.
Qed.
Lemma insts_tame l : forall s, tame (insts_from_json other ord l s).
Proof.
  induction l as [|v l IH]; intros s; cbn [insts_from_json]; [exact I|]. apply tame_bind; [apply tame_inst|]. intros [r s1]. apply tame_bind; [apply IH|]. intros [ps s2]. exact I.
Qed.
Lemma valid_start : valid (Jdst [] [] []).
Proof. intros r q H. discriminate H. Qed.
Lemma insts_panics l s : valid s -> insts_from_json other ord l s = Panic -> ~ Forall (fun v => ~ breaks v) l.
Proof. intros Hs H F. apply (insts_oks l s Hs) in F. destruct F as [a Ha]. congruence. Qed.
End Values.
