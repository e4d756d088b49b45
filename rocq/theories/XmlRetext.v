(** XmlRetext.v - values that come back from XML have the same text. *)
From Verif Require Import Base RbxlValues RbxValues Tree SpecValues SpecTree SpecCodec XmlText XmlDoc XmlCodec SpecXml SpecXmlValues SpecXmlResave TreeProofs
  XmlTextProofs XmlFloats XmlFloatsFit PropXmlValues RbxlFileProofs XmlTreeEnc XmlResave.
Local Notation string := String.string.

Section Retext.
Variable env : xenv.
Let fl := xe_fl env.
Hypothesis SC : strconv_ok fl.
Lemma text_again9 f : f32 f -> encodeFloat fl (again9 fl f) = encodeFloat fl f.
Proof.
  intros Hf. rewrite (again9_exact fl SC f Hf). destruct (Z.ltb_spec 0x7F800000 (abs32 f)) as [L|L]; [|reflexivity].
  unfold encodeFloat, encodeFloatPrec. rewrite (sc_fmt32 fl SC 9 f ltac:(discriminate) Hf), (sc_fmt32 fl SC 9 nan32 ltac:(discriminate) ltac:(vm_compute; reflexivity)).
  unfold format_g. change (sign_bit F32) with (2 ^ 31)%Z. change (Z.of_N f mod 2 ^ 31)%Z with (abs32 f). change (inf_bits F32) with 0x7F800000%Z.
  destruct (Z.leb_spec 0x7F800000 (abs32 f)); [|lia]. destruct (Z.eqb_spec 0x7F800000 (abs32 f)); [lia|]. vm_compute. reflexivity.
Qed.
Lemma leaf9 n f : f32 f -> float_leaf env (n, again9 fl f) = float_leaf env (n, f).
Proof. intros Hf. unfold float_leaf. cbn [fst snd]. fold fl. now rewrite text_again9. Qed.
Lemma text_six f : f32 f -> text6 fl f -> encodeFloatPrec fl 6 (again6 fl f) = encodeFloatPrec fl 6 f.
Proof. intros Hf [H|H]; [now apply text_again6|]. now rewrite H. Qed.
Lemma text_nine f : f64 f -> text9 fl f -> encodeDouble fl (again64 fl f) = encodeDouble fl f.
Proof. intros Hf [H|H]; [now apply text_again64|]. now rewrite H. Qed.
Lemma leaves9 ns l : Forall f32 l -> all_ok (float_leaf env) (combine ns (map (again9 fl) l)) = all_ok (float_leaf env) (combine ns l).
Proof.
  revert ns. induction l as [|a l IH]; intros ns H; [reflexivity|]. inversion H as [|? ? H1 H2]; subst. destruct ns as [|n ns]; [reflexivity|].
  cbn [map combine all_ok]. rewrite leaf9 by exact H1. now rewrite IH.
Qed.
Lemma vec9 n v : wf_vec3 v -> vec3_node env n (vec3_map (again9 fl) v) = vec3_node env n v.
Proof.
  destruct v as [x y z]. intros (H1 & H2 & H3). cbn in H1, H2, H3. unfold vec3_node, floats_node, vec3_map. cbn [v3x v3y v3z all_ok]. now rewrite !leaf9.
Qed.
Lemma cframe9 p rot : wf_vec3 p -> Forall f32 rot -> encode_cframe env (vec3_map (again9 fl) p) (map (again9 fl) rot) = encode_cframe env p rot.
Proof.
  destruct p as [x y z]. intros (H1 & H2 & H3) Hr. cbn in H1, H2, H3. unfold encode_cframe, floats_node, vec3_map. cbn [v3x v3y v3z app all_ok]. now rewrite !leaf9, leaves9.
Qed.
Lemma prec6_map {A} (f : A -> list N) (g : A -> A) l : (forall a, In a l -> f (g a) = map (again6 fl) (f a) /\ Forall (fun x => f32 x /\ text6 fl x) (f a)) ->
  prec6 env (flat_map f (map g l)) = prec6 env (flat_map f l).
Proof.
  assert (G : forall l r r', prec6 env r = prec6 env r' -> Forall (fun x => f32 x /\ text6 fl x) l -> prec6 env (map (again6 fl) l ++ r) = prec6 env (l ++ r')).
  { clear l f g. intros l. induction l as [|a l IH]; intros r r' E H; [exact E|]. inversion H as [|? ? [H1 H1'] H2]; subst. cbn [map app prec6]. fold fl. rewrite text_six by assumption. now rewrite (IH r r' E H2). }
  induction l as [|a l IH]; intros H; [reflexivity|]. cbn [map flat_map]. destruct (H a (or_introl eq_refl)) as [E F]. rewrite E. apply G; [|exact F]. apply IH. intros b Hb. apply H. now right.
Qed.
Lemma same_encode v w : (forall rnd s, encodeProperty env rnd w s = encodeProperty env rnd v s) ->
  (forall rnd rnd2 s s2 t s', encodeProperty env rnd v s = OK (t, s') -> s' = s /\ encodeProperty env rnd2 v s2 = OK (t, s2)) -> one_tag env v w.
Proof. intros H G rnd rnd2 s s2 t s' E. rewrite H. exact (G _ _ _ _ _ _ E). Qed.
Lemma self_encode v : self_contained v -> one_tag env v v.
Proof.
  intros Hv rnd rnd2 s s2 t s' E. assert (HP : forall t0 : tag, (OK (t0, s) : eout (tag * rest_)) = OK (t, s') -> s' = s /\ (OK (t0, s2) : eout (tag * rest_)) = OK (t, s2)).
  { intros t0 E0. apply OK_pair' in E0 as [-> ->]. now split. }
  destruct v; cbn [self_contained] in Hv; try contradiction; cbn [encodeProperty] in *; try exact (HP _ E).
  all: try (apply bind_OK in E as (a & Ea & E); rewrite Ea; cbn [obind]; first [exact (HP _ E)|apply bind_OK in E as (b & Eb & E); rewrite Eb; cbn [obind]; exact (HP _ E)]).
  - destruct custom; [|exact (HP _ E)]. apply bind_OK in E as (a & Ea & E). rewrite Ea. cbn [obind]. exact (HP _ E).
  - destruct v as [v|]; [destruct v|]; try exact (HP _ E). apply bind_OK in E as (a & Ea & E). rewrite Ea. cbn [obind]. exact (HP _ E).
Qed.
Lemma tag_named t : GetCanonTag (named_type t) true = GetCanonTag t true.
Proof.
  unfold named_type. destruct (existsb (fun e : N * string => N.eqb t (fst e)) canon_tags) eqn:E; [reflexivity|].
  assert (G : assocN canon_tags t = None).
  { revert E. generalize canon_tags. intros l. induction l as [|[k a] l IH]; [reflexivity|]. cbn [existsb fst assocN]. intros E. apply orb_false_elim in E as [E1 E2].
    rewrite (IH E2). destruct (N.eqb_spec t k) as [->|Hk]; [discriminate E1|]. destruct (N.eqb_spec k t) as [<-|]; [now destruct Hk|reflexivity]. }
  unfold GetCanonTag. rewrite G. reflexivity.
Qed.
(** What a value becomes has the same text. *)
Lemma retext v w : wf_rvalue v -> text_kept (text6 fl) (text9 fl) v -> self_contained v -> xml_value fl v = Some w -> one_tag env v w.
Proof.
  intros Hw Hk Hs E.
  assert (G : (forall rnd s, encodeProperty env rnd w s = encodeProperty env rnd v s) -> one_tag env v w).
  { intros H. apply same_encode; [exact H|]. now apply self_encode. }
  destruct v; cbn [self_contained] in Hs; try contradiction; cbn [xml_value wf_rvalue text_kept] in *; try (apply Some_eq in E; subst w).
  all: try (apply self_encode; exact I).
  all: try (apply G; intros rnd s1; cbn [encodeProperty]).
  all: try (repeat match goal with H : cr_leading _ |- _ => apply nl_text_keeps in H; rewrite H; clear H end; reflexivity).
  all: try (rewrite ?leaf9 by tauto; reflexivity).
  all: try (rewrite vec9 by tauto; reflexivity).
  all: try (unfold floats_node; cbn [all_ok]; rewrite ?leaf9 by tauto; reflexivity).
  - (* double *) fold fl. now rewrite text_nine.
  - (* ray *) now rewrite !vec9 by tauto.
  - (* brick color *) rewrite N.min_l by (unfold int32_max; lia). unfold int_leaf, FormatInt. destruct (Z.ltb_spec (Z.of_N n) 0); [lia|]. now rewrite N2Z.id.
  - (* cframe *) now rewrite cframe9 by tauto.
  - (* token *) rewrite N.min_l by (unfold int32_max; lia). reflexivity.
  - (* number sequence *) rewrite (prec6_map (fun k => [ns_time k; ns_value k; ns_env k]) (fun k => NSK (again6 fl (ns_time k)) (again6 fl (ns_value k)) (again6 fl (ns_env k)))); [reflexivity|].
    intros k Hin. split; [reflexivity|]. rewrite Forall_forall in Hk. pose proof (Hk k Hin) as (K1 & K2 & K3). destruct Hw as [_ Hw]. rewrite Forall_forall in Hw. pose proof (Hw k Hin) as (W1 & W2 & W3). repeat (apply Forall_cons; [split; assumption|]); apply Forall_nil.
  - (* color sequence *) rewrite (prec6_map (fun k => [cs_time k; cs_r k; cs_g k; cs_b k; cs_env k]) (fun k => CSK (again6 fl (cs_time k)) (again6 fl (cs_r k)) (again6 fl (cs_g k)) (again6 fl (cs_b k)) (again6 fl (cs_env k)))); [reflexivity|].
    intros k Hin. split; [reflexivity|]. rewrite Forall_forall in Hk. pose proof (Hk k Hin) as (K1 & K2 & K3 & K4 & K5). destruct Hw as [_ Hw]. rewrite Forall_forall in Hw. pose proof (Hw k Hin) as (W1 & W2 & W3 & W4 & W5). repeat (apply Forall_cons; [split; assumption|]); apply Forall_nil.
  - (* number range *) cbn [prec6]. fold fl. now rewrite !text_six by tauto.
  - (* physical properties *) destruct custom; apply Some_eq in E; subst w; [|reflexivity]. cbn [encodeProperty all_ok fst snd]. fold fl. now rewrite !text_again9 by tauto.
  - (* optional *) destruct v as [v|].
    + destruct v; cbn in Hk; try contradiction. apply Some_eq in E. subst w. cbn [wf_rvalue] in Hw. cbn [encodeProperty]. now rewrite cframe9 by tauto.
    + apply Some_eq in E. subst w. cbn [encodeProperty]. now rewrite tag_named.
  - (* font *) destruct Hk as (K1 & K2 & K3 & K4). destruct (N.ltb_spec weight (2 ^ 15)); [|lia]. apply nl_text_keeps in K1, K2. rewrite K1, K2 in E.
    assert (Es : (b2N style <=? 1)%N = true) by now apply style_01. rewrite Es in E. apply Some_eq in E. now subst w.
Qed.
End Retext.
