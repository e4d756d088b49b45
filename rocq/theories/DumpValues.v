(** DumpValues.v - the dump of a value shows all of it. *)
From Verif Require Import Base RbxlValues RbxlArrays RbxlModel RbxlFile SpecValues SpecArrays RbxValues SpecRoot PropRoot XmlText XmlTextProofs Json RbxlDump SpecDump DumpProofs DumpQuote.

Lemma ends_nl k r : ends (nl k ++ r).
Proof. ends_tac. Qed.
Lemma ends_brace r : ends (x7d :: r).
Proof. ends_tac. Qed.
Lemma ends_position r : ends (str "Position: " ++ r).
Proof. ends_tac. Qed.
Lemma ends_paren r : ends (str ")" ++ r).
Proof. ends_tac. Qed.
Lemma ends_paren2 r : ends (str ") {" ++ r).
Proof. ends_tac. Qed.
Lemma ends_colon r : ends (str ": " ++ r).
Proof. ends_tac. Qed.
#[export] Hint Resolve ends_nl ends_brace ends_position ends_paren ends_paren2 ends_colon : ends.

Lemma cut_bool b c r s : dump_bool b ++ r = dump_bool c ++ s -> b = c /\ r = s.
Proof.
  destruct b, c; unfold dump_bool; intros H.
  - apply app_inv_head in H. auto.
  - change (str "true") with [x74; x72; x75; x65] in H. change (str "false") with [x66; x61; x6c; x73; x65] in H. cbn [app] in H. discriminate.
  - change (str "true") with [x74; x72; x75; x65] in H. change (str "false") with [x66; x61; x6c; x73; x65] in H. cbn [app] in H. discriminate.
  - apply app_inv_head in H. auto.
Qed.
Lemma flat_hex2_inj (a b : bytes) : length a = length b -> flat_map hex2 a = flat_map hex2 b -> a = b.
Proof.
  revert b. induction a as [|x a IH]; intros [|y b] L H; try discriminate; [reflexivity|].
  cbn [flat_map] in H. apply app_inj_len in H; [|now rewrite !hex2_length]. destruct H as [E H]. f_equal; [now apply hex2_inj|].
  apply IH; [now injection L|exact H].
Qed.
Lemma uniqueid_eq r t i : uniqueid_string r t i = flat_map hex2 (be_bytes 8 (toN 64 r) ++ be_bytes 4 t ++ be_bytes 4 i).
Proof.
  unfold uniqueid_string, lower_hex. rewrite hex_loop_spec by (rewrite !app_length, !be_bytes_length, repeat_length; reflexivity).
  replace (be_bytes 8 (toN 64 r) ++ be_bytes 4 t ++ be_bytes 4 i ++ repeat x00 16)
    with ((be_bytes 8 (toN 64 r) ++ be_bytes 4 t ++ be_bytes 4 i) ++ repeat x00 16) by now rewrite <- !app_assoc.
  rewrite firstn_app_exact by (rewrite !app_length, !be_bytes_length; reflexivity).
  apply flat_map_ext. intros a. now destruct a.
Qed.
Lemma uniqueid_length r t i : length (uniqueid_string r t i) = 32.
Proof. unfold uniqueid_string. rewrite hex_loop_length, !app_length, !be_bytes_length, repeat_length. reflexivity. Qed.
Lemma cut_uniqueid r t i r' t' i' a b : f32 t -> f32 t' -> uniqueid_string r t i ++ a = uniqueid_string r' t' i' ++ b -> t = t' /\ a = b.
Proof.
  intros Ht Ht' H. apply app_inj_len in H; [|now rewrite !uniqueid_length]. destruct H as [H ->]. split; [|reflexivity].
  rewrite !uniqueid_eq in H. apply flat_hex2_inj in H; [|now rewrite !app_length, !be_bytes_length].
  apply app_inj_len in H; [|now rewrite !be_bytes_length]. destruct H as [_ H]. apply app_inj_len in H; [|now rewrite !be_bytes_length].
  destruct H as [H _]. apply (f_equal be_N) in H. rewrite !be_N_be_bytes in H. change (8 * N.of_nat 4)%N with 32%N in H.
  rewrite !N.mod_small in H by assumption. exact H.
Qed.
(** Text without blanks, up to a blank *)
Lemma cut_word a b r s : ~ In x20 a -> ~ In x20 b -> a ++ str " (" ++ r = b ++ str " (" ++ s -> a = b /\ r = s.
Proof.
  change (str " (") with [x20; x28]. revert b. induction a as [|x a IH]; intros [|y b] Ha Hb H; cbn [app] in H.
  - injection H as ->. auto.
  - exfalso. apply Hb. left. now injection H.
  - exfalso. apply Ha. left. now injection H.
  - injection H as -> H. destruct (IH b) as [-> ->]; auto.
    + intros F. apply Ha. now right.
    + intros F. apply Hb. now right.
Qed.
Lemma fontweight_word w : ~ In x20 (str (fontweight_string w)).
Proof.
  unfold fontweight_string. repeat match goal with |- context[if ?b then _ else _] => destruct b end; cbn; intuition discriminate.
Qed.
Lemma fontstyle_word w : ~ In x20 (str (fontstyle_string w)).
Proof.
  unfold fontstyle_string. repeat match goal with |- context[if ?b then _ else _] => destruct b end; cbn; intuition discriminate.
Qed.

Section Values.
  Variable de : denv.
  Hypothesis FT : float_text de.

  Lemma cut_f32 f g r s : f32 f -> f32 g -> ends r -> ends s -> de_f32 de f ++ r = de_f32 de g ++ s -> plain32 f = plain32 g /\ r = s.
  Proof.
    intros Hf Hg Hr Hs H. destruct (numeric_cut _ _ _ _ (ft_num32 de FT f) (ft_num32 de FT g) Hr Hs H) as [E ->].
    split; [now apply (ft_32 de FT)|reflexivity].
  Qed.
  Lemma cut_f64 f g r s : f64 f -> f64 g -> ends r -> ends s -> de_f64 de f ++ r = de_f64 de g ++ s -> plain64 f = plain64 g /\ r = s.
  Proof.
    intros Hf Hg Hr Hs H. destruct (numeric_cut _ _ _ _ (ft_num64 de FT f) (ft_num64 de FT g) Hr Hs H) as [E ->].
    split; [now apply (ft_64 de FT)|reflexivity].
  Qed.

  Ltac norm H := unfold braces, fld in H; repeat (rewrite <- app_assoc in H || (progress cbn [app] in H)).
  Ltac step H :=
    match type of H with
    | ?a :: _ = ?a :: _ => apply (f_equal (@tl byte)) in H; cbn [tl] in H
    | ?a ++ _ = ?a ++ _ => apply app_inv_head in H
    | de_f32 _ ?x ++ _ = _ => apply cut_f32 in H; [destruct H as [?E H]|assumption|assumption|now auto with ends|now auto with ends]
    | de_f64 _ ?x ++ _ = _ => apply cut_f64 in H; [destruct H as [?E H]|assumption|assumption|now auto with ends|now auto with ends]
    | FormatInt ?x ++ _ = _ => apply cut_int in H; [destruct H as [?E H]|now auto with ends|now auto with ends]
    | FormatUint ?x ++ _ = _ => apply cut_uint in H; [destruct H as [?E H]|now auto with ends|now auto with ends]
    | dump_bool ?x ++ _ = _ => apply cut_bool in H; destruct H as [?E H]
    | dumpString _ _ ?x ++ _ = _ => apply cut_string in H; destruct H as [?E H]
    | uniqueid_string _ _ _ ++ _ = _ => apply cut_uniqueid in H; [destruct H as [?E H]|assumption|assumption]
    end.
  Ltac peel H := norm H; repeat step H.

  Lemma cut_vec3 k u v r s : wf_vec3 u -> wf_vec3 v -> dump_vec3 de k u ++ r = dump_vec3 de k v ++ s -> plain_vec3 u = plain_vec3 v /\ r = s.
  Proof.
    intros (?&?&?) (?&?&?) HD. unfold dump_vec3 in HD. peel HD. split; [|exact HD]. unfold plain_vec3. congruence.
  Qed.
  Lemma cut_vec2 k x y x' y' r s : f32 x -> f32 y -> f32 x' -> f32 y' -> dump_vec2 de k x y ++ r = dump_vec2 de k x' y' ++ s ->
    plain32 x = plain32 x' /\ plain32 y = plain32 y' /\ r = s.
  Proof. intros ? ? ? ? HD. unfold dump_vec2 in HD. peel HD. auto. Qed.
  Lemma cut_color3 k x y z x' y' z' r s : f32 x -> f32 y -> f32 z -> f32 x' -> f32 y' -> f32 z' ->
    dump_color3 de k x y z ++ r = dump_color3 de k x' y' z' ++ s ->
    plain32 x = plain32 x' /\ plain32 y = plain32 y' /\ plain32 z = plain32 z' /\ r = s.
  Proof. intros ? ? ? ? ? ? HD. unfold dump_color3 in HD. peel HD. auto. Qed.
  Lemma cut_numbered {A B} (f : A -> bytes) (g : A -> B) (P : A -> Prop) k :
    (forall x y r s, P x -> P y -> f x ++ r = f y ++ s -> g x = g y /\ r = s) ->
    forall l l' i r s, Forall P l -> Forall P l' -> length l = length l' ->
      numbered f k i l ++ r = numbered f k i l' ++ s -> map g l = map g l' /\ r = s.
  Proof.
    intros Hf. induction l as [|x l IH]; intros [|y l'] i r s F F' L H; try discriminate; [auto|].
    inversion F; subst. inversion F'; subst. cbn [numbered] in H. norm H. step H. step H. step H. apply Hf in H; [|assumption..].
    destruct H as [E H]. apply IH in H; [|assumption|assumption|now injection L]. destruct H as [E' ->]. cbn [map]. split; [congruence|reflexivity].
  Qed.
  (** Lines of numbers, up to a closing brace one level up *)
  Lemma cut_rows k : forall l l' r s, Forall f32 l -> Forall f32 l' ->
    flat_map (fun x => nl (S k) ++ de_f32 de x) l ++ nl k ++ x7d :: r = flat_map (fun x => nl (S k) ++ de_f32 de x) l' ++ nl k ++ x7d :: s ->
    map plain32 l = map plain32 l' /\ r = s.
  Proof.
    assert (N : forall a b, nl (S k) ++ a = nl k ++ x7d :: b -> False).
    { intros a b H. unfold nl in H. cbn [app] in H. injection H as H. cbn [repeat] in H.
      change (x09 :: repeat x09 k ++ a) with ((x09 :: repeat x09 k) ++ a) in H.
      replace (x09 :: repeat x09 k) with (repeat x09 k ++ [x09]) in H by now rewrite repeat_cons.
      rewrite <- app_assoc in H. apply app_inv_head in H. discriminate. }
    induction l as [|x l IH]; intros [|y l'] r s F F' H; cbn [flat_map app] in H.
    - apply app_inv_head in H. injection H as ->. auto.
    - norm H. symmetry in H. now apply N in H.
    - norm H. now apply N in H.
    - inversion F; subst. inversion F'; subst. norm H. step H.
      assert (En : forall l q, ends (flat_map (fun x => nl (S k) ++ de_f32 de x) l ++ nl k ++ q)).
      { intros [|z l0] q; cbn [flat_map app]; [apply ends_nl|]. rewrite <- !app_assoc. apply ends_nl. }
      apply cut_f32 in H; [|assumption|assumption|apply En|apply En]. destruct H as [E H].
      apply IH in H; [|assumption..]. destruct H as [E' ->]. cbn [map]. split; [congruence|reflexivity].
  Qed.

  Ltac b2n := repeat match goal with E : b2N _ = b2N _ |- _ => apply b2N_inj in E end.
  Lemma cut_value k v w r s : wf_value v -> wf_value w -> vtype v = vtype w -> ends r -> ends s ->
    dump_value de k v ++ r = dump_value de k w ++ s -> shown v = shown w /\ r = s.
  Proof.
    intros Hv Hw T Er Es H. unfold shown.
    destruct v, w; try discriminate T; clear T; cbn [wf_value] in Hv, Hw; repeat match goal with X : _ /\ _ |- _ => destruct X end;
      cbn [dump_value] in H;
      try (peel H; b2n; (split; [|exact H]); cbn [stored plain]; congruence).
    - apply cut_color3 in H; [|assumption..]. destruct H as (? & ? & ? & ->). cbn [stored plain]. split; congruence.
    - apply cut_vec2 in H; [|assumption..]. destruct H as (? & ? & ->). cbn [stored plain]. split; congruence.
    - apply cut_vec3 in H; [|assumption..]. destruct H as (? & ->). cbn [stored plain]. split; congruence.
    - (* CFrame *) norm H. step H. step H. step H.
      apply cut_uint in H; [|destruct (Byte.eqb special x00); norm H; cbn [app]; rewrite <- ?app_assoc; auto with ends
                            |destruct (Byte.eqb special0 x00); cbn [app]; rewrite <- ?app_assoc; auto with ends].
      destruct H as [E H]. b2n. subst special0. cbn [stored]. destruct (Byte.eqb special x00).
      + norm H. step H. step H. apply cut_rows in H; [|assumption..]. destruct H as [E H]. step H. step H.
        apply cut_vec3 in H; [|assumption..]. destruct H as [E' H]. step H. step H. cbn [plain]. split; congruence.
      + norm H. step H. step H. apply cut_vec3 in H; [|assumption..]. destruct H as [E' H]. step H. step H. cbn [plain]. split; congruence.
    - (* CFrameQuat *) peel H. apply cut_vec3 in H; [|assumption..]. destruct H as [E' H]. step H. step H. b2n. subst special0. cbn [stored].
      destruct (Byte.eqb special x00); cbn [plain]; split; congruence.
    - (* NumberSequence *) norm H. step H. step H. apply Nat2N.inj in E. step H.
      eapply (cut_numbered _ (fun k => NSK (plain32 (ns_time k)) (plain32 (ns_value k)) (plain32 (ns_env k)))) in H; [| |eassumption|eassumption|exact E].
      2:{ intros x y r' s' (?&?&?) (?&?&?) Hx. unfold dump_nsk in Hx. peel Hx. split; [congruence|exact Hx]. }
      destruct H as [E' H]. step H. cbn [stored plain]. split; congruence.
    - (* ColorSequence *) norm H. step H. step H. apply Nat2N.inj in E. step H.
      eapply (cut_numbered _ (fun k => CSK (plain32 (cs_time k)) (plain32 (cs_r k)) (plain32 (cs_g k)) (plain32 (cs_b k)) (plain32 (cs_env k)))) in H;
        [| |eassumption|eassumption|exact E].
      2:{ intros x y r' s' (?&?&?&?&?) (?&?&?&?&?) Hx. unfold dump_csk in Hx. peel Hx. apply cut_color3 in Hx; [|assumption..].
          destruct Hx as (? & ? & ? & Hx). peel Hx. split; [congruence|exact Hx]. }
      destruct H as [E' H]. step H. cbn [stored plain]. split; congruence.
    - (* Rect *) peel H. apply cut_vec2 in H; [|assumption..]. destruct H as (? & ? & H). peel H. apply cut_vec2 in H; [|assumption..].
      destruct H as (? & ? & H). peel H. cbn [stored plain]. split; congruence.
    - (* PhysicalProperties *) norm H. step H. step H. step H.
      apply cut_uint in H; [|destruct (Byte.eqb custom x00); cbn [app]; rewrite <- ?app_assoc; auto with ends
                            |destruct (Byte.eqb custom0 x00); cbn [app]; rewrite <- ?app_assoc; auto with ends].
      destruct H as [E H]. b2n. subst custom0. cbn [stored]. destruct (Byte.eqb custom x00); peel H; cbn [plain]; split; congruence.
    - (* UniqueId *) peel H. subst time0. peel H. cbn [stored plain]. split; congruence.
    - (* Font *) peel H. apply cut_word in H; [|apply fontweight_word..]. destruct H as [_ H]. peel H.
      apply cut_word in H; [|apply fontstyle_word..]. destruct H as [_ H]. peel H. b2n. cbn [stored plain]. split; congruence.
  Qed.
End Values.
