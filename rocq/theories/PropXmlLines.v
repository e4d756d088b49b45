(** PropXmlLines.v - which tags of an encoded document stay on one line. *)
From Verif Require Import Base RbxlValues RbxValues Tree RbxlCodec SpecValues SpecTree SpecCodec XmlText XmlDoc XmlCodec SpecXml SpecXmlText SpecXmlWrite
  TreeProofs RbxlCodecEnc RbxlFileProofs XmlTreeEnc PropTree PropXmlDecode PropXmlEx PropXmlWrite.
Local Notation string := String.string.

(** ** Specification *)
(** t is a tag of the document with root d. *)
Inductive tag_in : tag -> tag -> Prop :=
| In_root d : tag_in d d
| In_child d c t : In c (t_tags d) -> tag_in c t -> tag_in d t.
(** Contents: the tag that has a tag url or null. *)
Definition content_names : list bytes := [str "Content"; str "Family"; str "CachedFaceId"].
(** A tag with tags in it has them on lines of their own, unless it is a content. *)
Definition on_one_line (t : tag) : Prop := t_noindent t = true.
Definition lines_ok (d : tag) : Prop :=
  forall t, tag_in d t -> t_tags t <> [] -> (on_one_line t <-> In (t_start t) content_names).

(** ** Proof *)
Definition one_line (n : bytes) : bool := existsb (bytes_eqb n) content_names.
Fixpoint lines (t : tag) : bool :=
  let 'Tag start _ _ _ _ _ _ ni tags := t in
  (negb (nonempty tags) || Bool.eqb ni (one_line start)) && forallb lines tags.
Lemma one_line_In n : one_line n = true <-> In n content_names.
Proof.
  unfold one_line. rewrite existsb_exists. split.
  - intros (m & Hm & E). destruct (beqb_spec n m); [now subst|discriminate].
  - intros H. exists n. split; [exact H|]. destruct (beqb_spec n n); congruence.
Qed.
Lemma lines_sound d : lines d = true -> lines_ok d.
Proof.
  intros H t Ht. induction Ht as [d|d c t Hc Ht IH].
  - destruct d as [st en at_ em co cd tx ni ts]. cbn [lines t_tags t_start] in *. unfold on_one_line. cbn [t_noindent]. intros Hne.
    apply andb_prop in H as [H _]. destruct ts; [contradiction|]. cbn [nonempty negb orb] in H. apply Bool.eqb_prop in H. rewrite H. apply one_line_In.
  - apply IH. destruct d. cbn [lines t_tags] in *. apply andb_prop in H as [_ H]. rewrite forallb_forall in H. auto.
Qed.
Lemma lines_leaf n tx ni : lines (leaf n tx ni) = true.
Proof. reflexivity. Qed.
Lemma lines_node n ts : one_line n = false -> forallb lines ts = true -> lines (node n ts) = true.
Proof. intros H H'. cbn [node lines]. rewrite H, H'. cbn. now rewrite orb_true_r. Qed.
Lemma lines_contentleaf n tx : lines (content_leaf n tx) = true.
Proof. unfold content_leaf. now destruct (has_cdata_end tx). Qed.
Lemma lines_start n t : one_line n = one_line (t_start t) -> lines t = true -> lines (with_start n t) = true.
Proof. destruct t. cbn [with_start lines t_start]. now intros ->. Qed.
Lemma lines_attr a t : lines t = true -> lines (with_attr a t) = true.
Proof. destruct t. exact (fun H => H). Qed.
Lemma lines_content c : lines (content_tag c) = true.
Proof. unfold content_tag. now destruct c. Qed.
Section Codec.
Variable (env : xenv) (rnd : nat -> bytes).
Lemma all_ok_lines {A} (f : A -> eout tag) : (forall a t, f a = OK t -> lines t = true) -> forall l ts, all_ok f l = OK ts -> forallb lines ts = true.
Proof.
  intros Hf. induction l as [|a l IH]; intros ts E; cbn [all_ok] in E; [injection E as <-; reflexivity|].
  apply bind_OK in E as (t & E1 & E). apply bind_OK in E as (ts' & E2 & E). injection E as <-. cbn [forallb]. rewrite (Hf _ _ E1). now apply IH.
Qed.
Lemma float_leaf_lines nf t : float_leaf env nf = OK t -> lines t = true.
Proof. intros E. unfold float_leaf in E. apply bind_OK in E as (x & _ & E). injection E as <-. reflexivity. Qed.
Lemma floats_node_lines n l t : one_line (str n) = false -> floats_node env n l = OK t -> lines t = true /\ t_start t = str n.
Proof.
  intros H E. unfold floats_node in E. apply bind_OK in E as (ts & E1 & E). injection E as <-. split; [|reflexivity].
  apply lines_node; [exact H|]. exact (all_ok_lines _ float_leaf_lines _ _ E1).
Qed.
Lemma canon_line t : one_line (GetCanonTag t true) = false.
Proof.
  unfold GetCanonTag. assert (H : forallb (fun kv => negb (one_line (str "Optional" ++ str (snd kv)))) canon_tags = true) by (vm_compute; reflexivity).
  revert H. generalize canon_tags. induction l as [|[k n] l IH]; intros H; cbn [assocN]; [reflexivity|]. cbn [forallb snd] in H. apply andb_prop in H as [H1 H2].
  destruct (_ =? _)%N; [now apply negb_true_iff|now apply IH].
Qed.
Lemma encodeProperty_lines v s t s' : encodeProperty env rnd v s = OK (t, s') -> lines t = true.
Proof.
  intros E. destruct v; cbn [encodeProperty] in E.
  all: try (apply OK_pair' in E as [<- _]; first [reflexivity | apply lines_content]).
  all: repeat match type of E with
    | obind ?m _ = OK _ => let a := fresh "a" in let Ea := fresh "Ea" in apply bind_OK in E as (a & Ea & E)
    end.
  all: try (apply OK_pair' in E as [<- _]).
  all: try (first [exact (float_leaf_lines _ _ Ea) | apply lines_contentleaf | reflexivity
    ]).
  all: try (apply lines_node; [reflexivity|]; cbn [forallb]).
  all: unfold vec3_node, encode_cframe in *.
  all: repeat match goal with
    | H : floats_node _ ?n ?l = OK ?a |- _ => let L := fresh in
      assert (L : lines a = true) by (exact (proj1 (floats_node_lines n l a eq_refl H))); clear H; rewrite ?L
    | H : float_leaf _ _ = OK ?a |- _ => let L := fresh in
      assert (L : lines a = true) by (exact (float_leaf_lines _ _ H)); clear H; rewrite ?L
    end; try reflexivity.
  - match type of E with (if ?b then _ else _) = _ => destruct b end; [apply OK_pair' in E as [<- _]; reflexivity|]. apply bind_OK in E as ([[[? ?] ?] ?] & _ & E).
    apply OK_pair' in E as [<- _]. reflexivity.
  - match type of E with (if ?b then _ else _) = _ => destruct b end; [|apply OK_pair' in E as [<- _]; reflexivity].
    apply bind_OK in E as (ts & Ets & E). apply OK_pair' in E as [<- _]. apply lines_node; [reflexivity|]. cbn [forallb lines_leaf].
    refine (all_ok_lines _ _ _ _ Ets). intros nf t0 E0. apply bind_OK in E0 as (x & _ & E0). injection E0 as <-. reflexivity.
  - destruct v as [v|]; [|apply OK_pair' in E as [<- _]; reflexivity].
    destruct v; try (apply OK_pair' in E as [<- _]; reflexivity).
    apply bind_OK in E as (x & Ex & E). apply OK_pair' in E as [<- _]. apply lines_node; [apply canon_line|]. cbn [forallb].
    destruct (floats_node_lines "CoordinateFrame"%string _ _ eq_refl Ex) as [Hx Hs]. rewrite lines_start; [reflexivity|now rewrite Hs|exact Hx].
  - rewrite forallb_app. cbn [forallb]. rewrite lines_start by (reflexivity || apply lines_content).
    destruct cached; [reflexivity|]. cbn [forallb andb]. rewrite lines_start by (reflexivity || apply lines_content). reflexivity.
Qed.
Lemma encode_props_lines l : forall s ts s', encode_props env rnd l s = OK (ts, s') -> forallb lines ts = true.
Proof.
  induction l as [|[n v] l IH]; intros s ts s' E; cbn [encode_props] in E; [apply OK_pair' in E as [<- _]; reflexivity|].
  apply bind_OK in E as ([t s1] & E1 & E). apply bind_OK in E as ([ts2 s2] & E2 & E). apply OK_pair' in E as [<- _]. cbn [forallb].
  rewrite (lines_attr _ _ (encodeProperty_lines _ _ _ _ E1)). now apply IH in E2.
Qed.
Lemma encode_list_lines f l : (forall p s t s', f p s = OK (t, s') -> lines t = true) -> forall s ts s', encode_list f l s = OK (ts, s') -> forallb lines ts = true.
Proof.
  intros Hf. induction l as [|p l IH]; intros s ts s' E; cbn [encode_list] in E; [apply OK_pair' in E as [<- _]; reflexivity|].
  apply bind_OK in E as ([t s1] & E1 & E). apply bind_OK in E as ([ts2 s2] & E2 & E). apply OK_pair' in E as [<- _]. cbn [forallb].
  rewrite (Hf _ _ _ _ E1). now apply IH in E2.
Qed.
Lemma encodeInstance_lines noref fuel : forall p s t s', encodeInstance env rnd fuel noref p s = OK (t, s') -> lines t = true.
Proof.
  induction fuel as [|fuel IH]; intros p s t s' E; [discriminate E|]. cbn [encodeInstance] in E.
  apply bind_OK in E as ([[[r h1] m1] k1] & E1 & E). destruct (hget h1 p) as [i|] eqn:Ei; [|discriminate E].
  apply bind_OK in E as ([ps s2] & E2 & E). apply encode_props_lines in E2. apply bind_OK in E as ([ts s3] & E3 & E). apply OK_pair' in E as [<- _].
  apply (encode_list_lines _ _ IH) in E3. assert (Hp : lines (node (str "Properties") ps) = true) by (apply lines_node; [reflexivity|exact E2]).
  unfold newItem, add_tags. destruct noref; cbn [with_attr lines nonempty]; cbn [app forallb]; rewrite Hp, E3; reflexivity.
Qed.
End Codec.

(** C74: every tag of the document that Encode writes and that has tags in it
    has them on lines of their own, except contents. *)
Theorem C74_lines : forall env rnd fuel o h r t h1, codec_write env rnd fuel o h r = OK (t, h1) -> lines_ok t.
Proof.
  intros env rnd fuel o h r t h1 E. apply lines_sound. unfold codec_write in E. destruct r as [r|]; [|discriminate E]. cbv zeta in E.
  apply bind_OK in E as ([items s] & E1 & E). apply (encode_list_lines _ _ (encodeInstance_lines env rnd _ fuel)) in E1.
  apply bind_OK in E as (sh & E2 & E). apply OK_pair' in E as [<- _].
  assert (Hsh : forallb lines sh = true).
  { unfold shared_strings_tag in E2. destruct (re_shared s) as [|kv l]; [injection E2 as <-; reflexivity|]. apply bind_OK in E2 as (ts & Ets & E2). injection E2 as <-.
    cbn [forallb]. rewrite lines_node; [reflexivity|reflexivity|]. refine (all_ok_lines _ _ _ _ Ets).
    intros kv' t0 E0. apply bind_OK in E0 as (x & _ & E0). injection E0 as <-. reflexivity. }
  cbn [lines]. rewrite !forallb_app, E1, Hsh.
  assert (Hm : forallb lines (if o_nometa o then [] else map (fun kv => Tag (str "Meta") [] [(str "name", fst kv)] false false None (snd kv) false []) (sort_by fst (r_metadata r))) = true).
  { destruct (o_nometa o); [reflexivity|]. apply forallb_forall. intros x Hx. apply in_map_iff in Hx as (kv & <- & _). reflexivity. }
  rewrite Hm. change (one_line (str "roblox")) with false. cbn [Bool.eqb]. rewrite orb_true_r. destruct (o_noext o); reflexivity.
Qed.
Example C74_lines_witness : exists t h1 c p, codec_write plain_env counter 9 (x_opts std)
    [Inst (str "Decal") (str "R") false [(str "Texture", RContent (str "u"))] []] (Some (Root [1] [])) = OK (t, h1) /\
  tag_in t c /\ t_tags c <> [] /\ on_one_line c /\ tag_in t p /\ t_tags p <> [] /\ ~ on_one_line p.
Proof.
  eexists. eexists. eexists. eexists. split; [vm_compute; reflexivity|]. split.
  - eapply In_child; [right; right; left; reflexivity|]. eapply In_child; [left; reflexivity|]. eapply In_child; [left; reflexivity|]. apply In_root.
  - split; [discriminate|]. split; [reflexivity|]. split; [apply In_root|]. split; [discriminate|]. discriminate.
Qed.
