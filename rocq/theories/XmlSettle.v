(** XmlSettle.v - what an XML file holds after one load: values of which the
    text is kept. *)
From Coq Require Import QArith Qround Qpower Lqa.
From Verif Require Import Base RbxlValues RbxValues Tree SpecValues SpecTree SpecCodec TreeProofs XmlText XmlDoc XmlCodec SpecXml XmlFloats XmlFloatsProofs XmlFloatsFit SpecXmlValues SpecXmlResave
  XmlTextProofs PropXmlValues.
Local Notation string := String.string.

Section Fits.
Variable fl : floats.
Hypothesis SC : strconv_ok fl.
Local Open Scope Z_scope.
Lemma again6_fits f : f32 f -> f32 (again6 fl f).
Proof.
  intros Hf. assert (H0 : 0 <= abs32 f < 2 ^ 31) by (apply Z.mod_pos_bound; lia). destruct (Z.lt_ge_cases (abs32 f) 0x7F800000) as [Ha|Ha].
  - destruct (form32 fl SC 6 f ltac:(discriminate) Hf Ha) as (t & d & x & E & W & D & Z0 & Zp). unfold again6, again32. rewrite E, (sc_parse32 fl SC t _ D).
    destruct (Z.eq_dec (abs32 f) 0) as [Hz|Hz].
    + rewrite (Z0 Hz). cbn [round_to Z.eqb]. change (sign_bit F32) with (2 ^ 31). pose proof (sign32 f Hf) as Hs. rewrite Hz, Z.add_0_l in Hs. now rewrite Hs.
    + destruct (Zp ltac:(lia)) as [Hd Hq]. change (Z.of_N 6) with 6 in Hq.
      pose proof (q_pos 6 F32 (abs32 f) ltac:(lia) ltac:(cbn; lia) ltac:(cbn; lia) ltac:(lia)) as P.
      unfold round_to. destruct (Z.eqb_spec d 0); [contradiction|]. destruct (round_pos F32 (inject_Z d * pow 10 x)) as [a|] eqn:Ea; [|reflexivity]. cbn [option_map].
      assert (Hpos : (0 < inject_Z d * pow 10 x)%Q).
      { destruct (round_digits 6 (f_val F32 (abs32 f))) as [q dp]. exact (pos_eq d x q dp 6 Hd P Hq). }
      destruct (round_pos_err F32 ltac:(cbn; lia) ltac:(cbn; lia) _ a Hpos Ea) as [Hr _]. change (inf_bits F32) with 0x7F800000 in Hr.
      exact (proj1 (signed32 (2 ^ 31 <=? Z.of_N f) a ltac:(lia))).
  - destruct (special32 fl SC 6 f ltac:(discriminate) Hf Ha) as (t & E & W & P). unfold again6, again32. rewrite E, P. destruct (Z.eqb_spec 0x7F800000 (abs32 f)); [exact Hf|reflexivity].
Qed.
Lemma again64_fits f : f64 f -> f64 (again64 fl f).
Proof.
  intros Hf. assert (H0 : 0 <= abs64 f < 2 ^ 63) by (apply Z.mod_pos_bound; lia). unfold again64, encodeDouble. rewrite (sc_fmt64 fl SC 9 f ltac:(discriminate) Hf).
  destruct (Z.lt_ge_cases (abs64 f) (inf_bits F64)) as [Ha|Ha].
  - rewrite (format_g_finite F64 9 f Ha). change (Z.of_N f mod sign_bit F64) with (abs64 f). change (sign_bit F64) with (2 ^ 63).
    destruct (Z.eq_dec (abs64 f) 0) as [Hz|Hz].
    + rewrite Hz. pose proof (body_form0 F64 9 ltac:(discriminate)) as B. rewrite (sc_parse64 fl SC _ _ (form_parse (2 ^ 63 <=? Z.of_N f) _ 0 0 B)). cbn [round_to Z.eqb]. change (sign_bit F64) with (2 ^ 63).
      exact (proj1 (signed64 (2 ^ 63 <=? Z.of_N f) 0 ltac:(lia))).
    + assert (Ha2 : 0 < abs64 f < inf_bits F64) by lia.
      pose proof (body_form F64 ltac:(cbn; lia) ltac:(cbn; lia) ltac:(vm_compute; discriminate) ltac:(vm_compute; discriminate) 9 (abs64 f) ltac:(discriminate) Ha2) as B.
      pose proof (q_pos 9 F64 (abs64 f) ltac:(lia) ltac:(cbn; lia) ltac:(cbn; lia) ltac:(lia)) as P. change (Z.of_N 9) with 9 in B.
      assert (B' : exists d x, form (body F64 9 (abs64 f)) d x /\ (0 < inject_Z d * pow 10 x)%Q).
      { destruct (round_digits 9 (f_val F64 (abs64 f))) as [q dp]. destruct B as (d & x & B1 & B2). exists d, x. split; [exact B1|]. now rewrite B2. }
      destruct B' as (d & x & B1 & Hpos). rewrite (sc_parse64 fl SC _ _ (form_parse (2 ^ 63 <=? Z.of_N f) _ d x B1)). unfold round_to.
      destruct (Z.eqb_spec d 0) as [->|Hd]; [change (inject_Z 0) with 0%Q in Hpos; lra|]. destruct (round_pos F64 (inject_Z d * pow 10 x)) as [a|] eqn:Ea; [|reflexivity]. cbn [option_map].
      destruct (round_pos_err F64 ltac:(cbn; lia) ltac:(cbn; lia) _ a Hpos Ea) as [Hr _]. change (inf_bits F64) with 0x7FF0000000000000 in Hr.
      exact (proj1 (signed64 (2 ^ 63 <=? Z.of_N f) a ltac:(lia))).
  - destruct (sc_special64 fl SC) as (S1 & S2 & S3). unfold format_g. change (Z.of_N f mod sign_bit F64) with (abs64 f). destruct (Z.leb_spec (inf_bits F64) (abs64 f)); [|lia].
    change (sign_bit F64) with (2 ^ 63). destruct (Z.eqb_spec (inf_bits F64) (abs64 f)) as [Ei|Ei]; [destruct (2 ^ 63 <=? Z.of_N f) eqn:Es|].
    + rewrite S3. reflexivity.
    + rewrite S2. reflexivity.
    + rewrite S1. reflexivity.
Qed.
End Fits.
Local Close Scope Q_scope.
Local Open Scope nat_scope.

(** ** Text does not get the end of a CDATA section *)
Lemma has_end_cons c s : has_cdata_end s = true -> has_cdata_end (c :: s) = true.
Proof. intros H. cbn [has_cdata_end]. now destruct (drop_prefix _ _). Qed.
Lemma nl_head b s t : b <> x0a -> nl s = b :: t -> exists r, s = b :: r /\ nl r = t.
Proof.
  intros Hb E. destruct s as [|c r]; [discriminate E|]. cbn [nl] in E. destruct (Byte.eqb c x0d); [injection E as <- _; now destruct Hb|]. injection E as <- E. now exists r.
Qed.
Lemma bracket_prefix s r : drop_prefix (str "]]>") s = Some r -> s = x5d :: x5d :: x3e :: r.
Proof.
  change (str "]]>") with [x5d; x5d; x3e]. destruct s as [|a s]; [discriminate|]. cbn [drop_prefix]. destruct (Byte.eqb x5d a) eqn:Ea; [|discriminate]. apply Byte.byte_dec_bl in Ea.
  destruct s as [|b s]; [discriminate|]. destruct (Byte.eqb x5d b) eqn:Eb; [|discriminate]. apply Byte.byte_dec_bl in Eb.
  destruct s as [|c s]; [discriminate|]. destruct (Byte.eqb x3e c) eqn:Ec; [|discriminate]. apply Byte.byte_dec_bl in Ec. subst. intros E. apply Some_eq in E. now subst.
Qed.
Lemma nl_end s : has_cdata_end (nl s) = true -> has_cdata_end s = true.
Proof.
  assert (G : forall n s, length s <= n -> has_cdata_end (nl s) = true -> has_cdata_end s = true).
  { induction n as [|n IH]; intros [|c r] Hl H; cbn [length] in Hl; try lia; try discriminate H.
    cbn [nl] in H. destruct (Byte.eqb c x0d) eqn:Ec.
    - change (has_cdata_end (x0a :: match r with c' :: r' => if Byte.eqb c' x0a then nl r' else nl r | [] => [] end)) with
        (has_cdata_end match r with c' :: r' => if Byte.eqb c' x0a then nl r' else nl r | [] => [] end) in H.
      destruct r as [|c' r']; [discriminate H|]. cbn [length] in Hl. apply has_end_cons. destruct (Byte.eqb c' x0a); [apply has_end_cons|]; apply IH; try exact H; cbn [length]; lia.
    - cbn [has_cdata_end] in H. destruct (drop_prefix (str "]]>") (c :: nl r)) as [t|] eqn:E.
      + apply bracket_prefix in E. injection E as -> E. apply nl_head in E as (r1 & -> & E1); [|discriminate]. apply nl_head in E1 as (r2 & -> & _); [reflexivity|discriminate].
      + apply has_end_cons. apply IH; [lia|exact H]. }
  exact (G (length s) s (le_n _)).
Qed.
Lemma nl_text_end s : has_cdata_end (nl_text s) = true -> has_cdata_end s = true.
Proof.
  induction s as [|c s IH]; [discriminate|]. cbn [nl_text]. destruct (isSpace c) eqn:Ec; [|apply nl_end]. intros H. apply has_end_cons. apply IH.
  cbn [has_cdata_end] in H. destruct (drop_prefix (str "]]>") (c :: nl_text s)) as [t|] eqn:E; [|exact H]. apply bracket_prefix in E. injection E as -> _. discriminate Ec.
Qed.
Lemma nl_text_len s : len32 s -> len32 (nl_text s).
Proof.
  intros H. assert (L : length (nl_text s) <= length s); [|unfold len32 in *; lia]. clear H.
  induction s as [|c s IH]; [cbn; lia|]. cbn [nl_text]. destruct (isSpace c); [cbn [length]; lia|]. apply (proj2 (nl_out (c :: s))).
Qed.

(** ** Values *)
(** The values for which this is shown: the numbers of which some digits are
    not written are normal, and optionals have a type with a name. *)
Definition settles (v : rvalue) : Prop := normal_value v /\ match v with ROptional t _ => t <> TypeOptional | _ => True end.
Section Values.
Variable fl : floats.
Hypothesis SC : strconv_ok fl.
Lemma fits9 f : f32 f -> f32 (again9 fl f).
Proof. intros H. exact (proj1 (again9_f32 fl SC f H)). Qed.
Lemma vec9_fits v : wf_vec3 v -> wf_vec3 (vec3_map (again9 fl) v).
Proof. destruct v as [x y z]. intros (H1 & H2 & H3). split; [|split]; now apply fits9. Qed.
Lemma rot9_fits l : Forall f32 l -> Forall f32 (map (again9 fl) l).
Proof. intros H. apply Forall_map. eapply Forall_impl; [|exact H]. exact fits9. Qed.
Lemma named_string t s : assocN typeStrings t = Some s -> t <> TypeOptional -> named_type t = t.
Proof.
  intros H Ht. unfold named_type. cbn [typeStrings assocN] in H.
  repeat match type of H with (if (?k =? t)%N then _ else _) = _ => destruct (N.eqb_spec k t) as [<-|?]; [first [reflexivity|now destruct Ht]|] end. discriminate H.
Qed.
Lemma named_rtype v : wf_rvalue v -> rtype v <> TypeOptional -> named_type (rtype v) = rtype v /\ exists s, assocN typeStrings (rtype v) = Some s.
Proof. intros _ Ht. destruct v; try (split; [reflexivity|eexists; reflexivity]). now destruct Ht. Qed.
Lemma value_fits v w : wf_rvalue v -> settles v -> xml_value fl v = Some w -> wf_rvalue w.
Proof.
  intros Hw [Hn Ho] E. destruct v; cbn [xml_value wf_rvalue] in *; try (apply Some_eq in E; subst w); cbn [wf_rvalue]; try exact Hw; try (now apply nl_text_len).
  all: try (repeat match goal with |- _ /\ _ => split end; first [tauto|apply fits9; tauto|apply vec9_fits; tauto|apply rot9_fits; tauto]).
  - now apply again64_fits.
  - (* brick color *) unfold int_range, int32_max. cbn. lia.
  - destruct Hw as (H1 & H2 & H3). split; [now apply vec9_fits|]. split; [now rewrite map_length|now apply rot9_fits].
  - unfold f32 in *. unfold int32_max. lia.
  - destruct Hw as [H1 H2]. split; [unfold len32 in *; now rewrite map_length|]. apply Forall_map. eapply Forall_impl; [|exact H2]. intros k (A & B & C). repeat split; now apply again6_fits.
  - destruct Hw as [H1 H2]. split; [unfold len32 in *; now rewrite map_length|]. apply Forall_map. eapply Forall_impl; [|exact H2]. intros k (A & B & C & D & F). repeat split; now apply again6_fits.
  - split; apply again6_fits; tauto.
  - destruct custom; apply Some_eq in E; subst w; cbn [wf_rvalue]; repeat split; first [apply fits9; tauto|reflexivity].
  - assert (G : forall u, named_type typ = u -> wf_rvalue (ROptional u None)).
    { intros u <-. cbn [wf_rvalue]. destruct v as [v|].
      - destruct Hw as [-> Hw]. destruct (named_rtype v Hw Ho) as [-> H]. exact H.
      - destruct Hw as [s Hs]. rewrite (named_string typ s Hs Ho). now exists s. }
    destruct v as [v|]; [destruct v|]; apply Some_eq in E; subst w; try (now apply G).
    destruct Hw as [-> (H1 & H2 & H3)]. cbn [wf_rvalue]. split; [reflexivity|]. split; [now apply vec9_fits|]. split; [now rewrite map_length|now apply rot9_fits].
  - destruct Hw as (H1 & H2 & H3). destruct (N.ltb_spec weight (2 ^ 15)).
    + destruct (b2N style <=? 1)%N; [|discriminate E]. apply Some_eq in E. subst w. cbn [wf_rvalue]. split; [now apply nl_text_len|]. split; [exact H2|now apply nl_text_len].
    + apply Some_eq in E. subst w. cbn [wf_rvalue]. split; [now apply nl_text_len|]. split; [reflexivity|now apply nl_text_len].
Qed.
Lemma kept_text v : kept (six fl) (nine fl) v -> text_kept (text6 fl) (text9 fl) v.
Proof.
  intros H. destruct v; cbn [kept text_kept] in *; try exact I; try tauto.
  - now right.
  - eapply Forall_impl; [|exact H]. intros k (A & B & C). repeat split; now right.
  - eapply Forall_impl; [|exact H]. intros k (A & B & C & D & F). repeat split; now right.
  - split; right; tauto.
  - destruct v as [v|]; [destruct v|]; tauto.
  - destruct H as (A & B & [[C D]|[-> ->]]); [tauto|]. split; [exact A|]. split; [exact B|]. split; [reflexivity|now left].
Qed.
Lemma value_enclosed v w : enclosed v = true -> xml_value fl v = Some w -> enclosed w = true.
Proof.
  intros H E. destruct v; cbn [xml_value] in E; try (apply Some_eq in E; subst w); try reflexivity.
  - cbn [enclosed] in *. destruct (has_cdata_end (nl_text s)) eqn:F; [|reflexivity]. apply nl_text_end in F. now rewrite F in H.
  - destruct custom; apply Some_eq in E; now subst w.
  - destruct v as [v|]; [destruct v|]; apply Some_eq in E; now subst w.
  - destruct (weight <? 2 ^ 15)%N; [destruct (b2N style <=? 1)%N; [|discriminate E]|]; apply Some_eq in E; now subst w.
Qed.
(** What a property has become has these properties, and keeps its text. *)
Lemma prop_settled discard phi v w : wf_rvalue v -> settles v -> enclosed v = true -> xml_prop fl discard false phi v = Some w ->
  wf_rvalue w /\ enclosed w = true /\ text_kept (text6 fl) (text9 fl) w.
Proof.
  intros Hw Hs He E. assert (D : (exists q, v = RReference q) \/ (exists s, v = RSharedString s) \/ xml_prop fl discard false phi v = xml_value_or fl discard v) by (destruct v; eauto).
  destruct D as [[q ->]|[[s ->]|D]]; [cbn in E; apply Some_eq in E; subst w; repeat split|cbn in E; apply Some_eq in E; subst w; repeat split; exact Hw|].
  rewrite D in E. unfold xml_value_or in E. destruct (xml_value fl v) as [u|] eqn:Eu.
  - apply Some_eq in E. subst u. pose proof (value_fits v w Hw Hs Eu) as Ww. split; [exact Ww|]. split; [exact (value_enclosed v w He Eu)|].
    apply kept_text. apply (C53_kept fl SC w Ww). exact (C53_stable fl SC v w Hw (proj1 Hs) Eu).
  - destruct discard; [discriminate E|]. apply Some_eq in E. subst w. split; [repeat split|]. split; [reflexivity|]. cbn. repeat split; try (now left).
Qed.
End Values.
