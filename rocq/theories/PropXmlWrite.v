(** PropXmlWrite.v - the text that the XML encoder writes. *)
From Verif Require Import Base RbxlValues RbxValues Tree RbxlCodec SpecValues SpecTree SpecCodec XmlText XmlDoc XmlCodec SpecXml SpecXmlText SpecXmlWrite
  TreeProofs RbxlCodecEnc RbxlFileProofs XmlTextProofs XmlGrammar XmlGrammarTags XmlLayout XmlValues XmlTreeEnc XmlWriteProofs PropTree PropXmlDecode PropXmlEx.
Local Notation string := String.string.

(** ** C74: the exact text of a document *)
Lemma document_text_write d out ws : document_text d out ws -> WriteTo d = (ws, out).
Proof.
  unfold document_text, WriteTo. destruct (doc_root d) as [t|]; [|now intros [-> ->]]. intros (r & H & ->).
  rewrite (root_text_is _ _ _ _ _ _ H). cbn [e_warn e_out]. now rewrite <- app_assoc.
Qed.
Lemma document_text_total d : (forall t, doc_root d = Some t -> named_root (doc_exclude d) t) -> exists out ws, document_text d out ws.
Proof.
  unfold document_text. destruct (doc_root d) as [t|]; [|intros _; now exists [], []]. intros H. specialize (H t eq_refl).
  assert (G : exists r ws, root_text (doc_prefix d) (doc_indent d) (doc_exclude d) t r ws).
  { unfold named_root in H. destruct (doc_exclude d).
    - destruct t as [st en at_ em co cd tx ni ts]. cbn [t_comment t_tags] in H. destruct co.
      + eexists _, _. apply Root_comment, element_text_total.
      + destruct H as [H|H]; [discriminate|]. destruct (new_line_total (doc_prefix d) (doc_indent d) 0) as [sep Hs].
        destruct (tags_text_total (doc_prefix d) (doc_indent d) ts H 0 (negb ni) (if ni then [] else sep) []) as (rs & ws & E).
        assert (Hc : exists rc, cdata_text cd rc) by (destruct cd; eexists; constructor). destruct Hc as [rc Hc].
        eexists _, _. eapply Root_inner with (sep := if ni then [] else sep); [| |exact Hc|apply element_text_total|exact E]; destruct ni; auto; discriminate.
    - destruct (tag_text_total (doc_prefix d) (doc_indent d) t H 0 true) as (r & ws & E). eexists _, _. apply Root_tag. exact E. }
  destruct G as (r & ws & G). eauto.
Qed.
(** A document whose tags have names is written as its text, with the warnings
    about attributes and end names; there is one such text. *)
Theorem C74_text : forall d out ws, (forall t, doc_root d = Some t -> named_root (doc_exclude d) t) ->
  document_text d out ws <-> WriteTo d = (ws, out).
Proof.
  intros d out ws H. split; [apply document_text_write|]. intros E. destruct (document_text_total d H) as (out' & ws' & G).
  pose proof (document_text_write _ _ _ G) as E'. rewrite E in E'. apply pair_equal_spec in E' as [-> ->]. exact G.
Qed.

(** ** What the codec gives to the writer *)
(** No CDATA section is needed for this value. *)
Definition no_section (v : rvalue) : Prop := match v with RProtectedString s => has_cdata_end s = false | _ => True end.
Fixpoint shape (cd : bool) (t : tag) : bool :=
  let 'Tag start end_ attr empty comment cdata _ _ tags := t in
  good_name start && negb (nonempty end_) && forallb (fun a => good_name (fst a)) attr && negb empty && negb comment &&
  (cd || match cdata with None => true | _ => false end) && forallb (shape cd) tags.
Lemma shape_leaf cd n tx ni : good_name (str n) = true -> shape cd (leaf n tx ni) = true.
Proof. intros H. cbn [leaf shape forallb nonempty negb]. rewrite H. cbn. now rewrite orb_true_r. Qed.
Lemma shape_node cd n ts : good_name n = true -> forallb (shape cd) ts = true -> shape cd (node n ts) = true.
Proof. intros H H'. cbn [node shape forallb nonempty negb]. rewrite H, H'. cbn. now rewrite orb_true_r. Qed.
Lemma shape_content cd n tx : good_name (str n) = true -> cd = true \/ has_cdata_end tx = false -> shape cd (content_leaf n tx) = true.
Proof.
  intros H H'. unfold content_leaf. destruct (has_cdata_end tx) eqn:E; [|now apply shape_leaf]. destruct H' as [-> |H']; [|discriminate H'].
  cbn [shape forallb nonempty negb]. now rewrite H.
Qed.
Lemma shape_start cd n t : good_name n = true -> shape cd t = true -> shape cd (with_start n t) = true.
Proof. destruct t. cbn [with_start shape]. intros ->. do 6 (intros H; apply andb_prop in H as [H ?]; revert H). intros H. repeat (apply andb_true_intro; split); auto. Qed.
Section Codec.
Variable (env : xenv) (rnd : nat -> bytes).
Lemma all_ok_shape {A} cd (f : A -> eout tag) (P : A -> Prop) : (forall a t, P a -> f a = OK t -> shape cd t = true) ->
  forall l ts, Forall P l -> all_ok f l = OK ts -> forallb (shape cd) ts = true.
Proof.
  intros Hf. induction l as [|a l IH]; intros ts HP E; cbn [all_ok] in E; [injection E as <-; reflexivity|]. inversion HP; subst.
  apply bind_OK in E as (t & E1 & E). apply bind_OK in E as (ts' & E2 & E). injection E as <-. cbn [forallb]. rewrite (Hf _ _ H1 E1). now apply IH.
Qed.
Definition named_float (nf : string * N) : Prop := good_name (str (fst nf)) = true.
Lemma float_leaf_shape cd nf t : float_leaf env nf = OK t -> named_float nf -> shape cd t = true.
Proof. intros E H. unfold float_leaf in E. apply bind_OK in E as (x & _ & E). injection E as <-. now apply shape_leaf. Qed.
Lemma floats_node_shape cd n l t : good_name (str n) = true -> Forall named_float l -> floats_node env n l = OK t -> shape cd t = true.
Proof.
  intros H HF E. unfold floats_node in E. apply bind_OK in E as (ts & E1 & E). injection E as <-. apply shape_node; [exact H|].
  exact (all_ok_shape cd _ _ (fun a t H E => float_leaf_shape cd a t E H) _ _ HF E1).
Qed.
Lemma floats_node_ok cd n l t : floats_node env n l = OK t -> good_name (str n) = true -> Forall named_float l -> shape cd t = true.
Proof. intros E H HF. exact (floats_node_shape cd n l t H HF E). Qed.
Lemma cframe_shape cd pos rot t : encode_cframe env pos rot = OK t -> shape cd t = true.
Proof.
  apply floats_node_shape; [reflexivity|]. apply Forall_app. split; [repeat constructor|].
  set (names := ["R00"; "R01"; "R02"; "R10"; "R11"; "R12"; "R20"; "R21"; "R22"]%string).
  assert (HN : Forall (fun n => good_name (str n) = true) names) by (repeat constructor). revert HN. generalize names. clear.
  intros names HN. revert rot. induction HN as [|n ns Hn _ IH]; intros rot; [constructor|]. destruct rot; [constructor|]. constructor; [exact Hn|apply IH].
Qed.
Lemma content_tag_shape cd c : shape cd (content_tag c) = true.
Proof. unfold content_tag. cbn [shape forallb]. destruct c; destruct cd; reflexivity. Qed.
Lemma canon_good t o : good_name (GetCanonTag t true) = true -> o = true -> good_name (GetCanonTag t o) = true.
Proof. now intros H ->. Qed.
Lemma canon_name t : good_name (GetCanonTag t true) = true.
Proof.
  unfold GetCanonTag. assert (H : forallb (fun kv => good_name (str "Optional" ++ str (snd kv))) canon_tags = true) by (vm_compute; reflexivity).
  revert H. generalize canon_tags. induction l as [|[k n] l IH]; intros H; cbn [assocN]; [reflexivity|]. cbn [forallb snd] in H. apply andb_prop in H as [H1 H2].
  destruct (_ =? _)%N; [exact H1|now apply IH].
Qed.
Lemma encodeProperty_shape cd v s t s' : cd = true \/ no_section v -> encodeProperty env rnd v s = OK (t, s') -> shape cd t = true.
Proof.
  intros Hv E. destruct v; cbn [encodeProperty] in E.
  all: try (apply OK_pair' in E as [<- _]; first [reflexivity | apply shape_leaf; reflexivity | apply content_tag_shape | now destruct cd]).
  all: repeat match type of E with
    | obind ?m _ = OK _ => let a := fresh "a" in let Ea := fresh "Ea" in apply bind_OK in E as (a & Ea & E)
    end.
  all: try (apply OK_pair' in E as [<- _]).
  all: try (first [exact (cframe_shape _ _ _ _ Ea) | eapply floats_node_shape; [| |exact Ea]; [reflexivity|repeat constructor]
                  | eapply float_leaf_shape; [exact Ea|reflexivity] | apply shape_leaf; reflexivity]).
  - apply shape_content; [reflexivity|]. right. destruct (b64_lines_ok s0) as (t' & E' & _ & _ & H). rewrite Ea in E'. injection E' as <-. exact H.
  - apply shape_content; [reflexivity|]. exact Hv.
  - apply shape_node; [reflexivity|]. cbn [forallb]. rewrite (float_leaf_shape cd _ _ Ea eq_refl). unfold int_leaf. now rewrite shape_leaf.
  - apply shape_node; [reflexivity|]. cbn [forallb]. rewrite (float_leaf_shape cd _ _ Ea eq_refl), (float_leaf_shape cd _ _ Ea0 eq_refl). unfold int_leaf. now rewrite !shape_leaf.
  - apply shape_node; [reflexivity|]. cbn [forallb]. unfold vec3_node in Ea, Ea0.
    rewrite (floats_node_ok cd _ _ _ Ea eq_refl ltac:(repeat constructor)), (floats_node_ok cd _ _ _ Ea0 eq_refl ltac:(repeat constructor)). reflexivity.
  - destruct (p =? 0)%nat; [apply OK_pair' in E as [<- _]; now apply shape_leaf|]. apply bind_OK in E as ([[[? ?] ?] ?] & _ & E).
    apply OK_pair' in E as [<- _]. now apply shape_leaf.
  - apply shape_node; [reflexivity|]. cbn [forallb].
    rewrite (floats_node_ok cd _ _ _ Ea eq_refl ltac:(repeat constructor)), (floats_node_ok cd _ _ _ Ea0 eq_refl ltac:(repeat constructor)). reflexivity.
  - destruct custom; [|apply OK_pair' in E as [<- _]; apply shape_node; [reflexivity|]; cbn [forallb]; now rewrite shape_leaf].
    apply bind_OK in E as (ts & Ets & E). apply OK_pair' in E as [<- _]. apply shape_node; [reflexivity|]. cbn [forallb]. rewrite shape_leaf by reflexivity.
    refine (all_ok_shape cd _ named_float _ _ _ _ Ets); [|repeat constructor]. intros nf t0 H E0. apply bind_OK in E0 as (x & _ & E0). injection E0 as <-. now apply shape_leaf.
  - apply shape_content; [reflexivity|]. right. destruct (b64_lines_ok (xe_hash env s0)) as (t' & E' & _ & _ & H). rewrite Ea in E'. injection E' as <-. exact H.
  - assert (HN : forall tx ni ts, forallb (shape cd) ts = true -> shape cd (Tag (GetCanonTag typ true) [] [] false false None tx ni ts) = true).
    { intros tx ni ts H. cbn [shape forallb nonempty negb]. rewrite canon_name, H. cbn. now rewrite orb_true_r. }
    destruct v as [v|]; [|apply OK_pair' in E as [<- _]; now apply HN].
    destruct v; try (apply OK_pair' in E as [<- _]; now apply HN).
    apply bind_OK in E as (x & Ex & E). apply OK_pair' in E as [<- _]. apply HN. cbn [forallb]. rewrite shape_start; [reflexivity|reflexivity|exact (cframe_shape _ _ _ _ Ex)].
  - apply shape_node; [reflexivity|]. rewrite forallb_app. cbn [forallb]. rewrite shape_start by (reflexivity || apply content_tag_shape).
    unfold int_leaf. rewrite !shape_leaf by reflexivity. destruct cached; [reflexivity|]. cbn [forallb andb]. rewrite shape_start by (reflexivity || apply content_tag_shape). reflexivity.
Qed.
(** All the properties in the heap. *)
Definition all_values (P : rvalue -> Prop) (h : heap) : Prop :=
  forall p i n v, hget h p = Some i -> In (n, v) (i_props i) -> P v.
Lemma get_ref_values P h m k p r h' m' k' : all_values P h -> get_ref rnd h m k p = OK (r, h', m', k') -> all_values P h'.
Proof.
  unfold get_ref. intros HP E. destruct (p =? 0)%nat; [apply OK_pair' in E as [E _]; apply pair_equal_spec in E as [E _]; apply pair_equal_spec in E as [_ <-]; exact HP|].
  destruct (hget h p) as [i|] eqn:Ei; [|discriminate E]. destruct (_ || _).
  - apply bind_OK in E as ([r0 k0] & _ & E). apply OK_pair' in E as [E _]; apply pair_equal_spec in E as [E _]; apply pair_equal_spec in E as [_ <-].
    intros q j n v Hq Hin. rewrite hget_hset in Hq. destruct (Nat.eqb_spec q p) as [->|]; [|exact (HP _ _ _ _ Hq Hin)]. rewrite Ei in Hq. injection Hq as <-. exact (HP _ _ _ _ Ei Hin).
  - apply OK_pair' in E as [E _]; apply pair_equal_spec in E as [E _]; apply pair_equal_spec in E as [_ <-]; exact HP.
Qed.
Lemma encodeProperty_values P v s t s' : all_values P (re_heap s) -> encodeProperty env rnd v s = OK (t, s') -> all_values P (re_heap s').
Proof.
  intros H E. assert (HP : forall t0 : tag, (OK (t0, s) : eout (tag * rest_)) = OK (t, s') -> all_values P (re_heap s')) by (intros t0 E0; now apply OK_pair' in E0 as [_ <-]).
  destruct v; cbn [encodeProperty] in E; try exact (HP _ E).
  all: try (apply bind_OK in E as (a & _ & E); first [exact (HP _ E)|apply bind_OK in E as (b & _ & E); exact (HP _ E)]).
  - destruct (p =? 0)%nat; [exact (HP _ E)|]. apply bind_OK in E as ([[[r h1] m1] k1] & E1 & E). apply OK_pair' in E as [_ <-]. exact (get_ref_values _ _ _ _ _ _ _ _ _ H E1).
  - destruct custom; [|exact (HP _ E)]. apply bind_OK in E as (a & _ & E). exact (HP _ E).
  - apply bind_OK in E as (a & _ & E). apply OK_pair' in E as [_ <-]. exact H.
  - destruct v as [v|]; [destruct v|]; try exact (HP _ E). apply bind_OK in E as (a & _ & E). exact (HP _ E).
Qed.
Lemma shape_attr cd a t : forallb (fun a => good_name (fst a)) a = true -> shape cd t = true -> shape cd (with_attr a t) = true.
Proof. destruct t. cbn [with_attr shape]. intros Ha H. rewrite Ha. rewrite !andb_true_iff in *. intuition. Qed.
Lemma encode_props_shape cd (P : rvalue -> Prop) l : (forall v, P v -> cd = true \/ no_section v) -> Forall (fun nv => P (snd nv)) l ->
  forall s ts s', all_values P (re_heap s) -> encode_props env rnd l s = OK (ts, s') ->
  all_values P (re_heap s') /\ forallb (shape cd) ts = true.
Proof.
  intros HP. induction 1 as [|[n v] l Hv _ IH]; intros s ts s' HA E; cbn [encode_props] in E; [apply OK_pair' in E as [<- <-]; now split|].
  apply bind_OK in E as ([t s1] & E1 & E). apply bind_OK in E as ([ts2 s2] & E2 & E). apply OK_pair' in E as [<- <-].
  destruct (IH _ _ _ (encodeProperty_values _ _ _ _ _ HA E1) E2) as [H1 H2]. split; [exact H1|]. cbn [forallb]. rewrite H2, andb_true_r.
  apply shape_attr; [reflexivity|]. exact (encodeProperty_shape cd _ _ _ _ (HP _ Hv) E1).
Qed.
Definition shape_enc cd (P : rvalue -> Prop) (f : ptr -> rest_ -> eout (tag * rest_)) : Prop := forall p s t s', all_values P (re_heap s) -> f p s = OK (t, s') ->
  all_values P (re_heap s') /\ shape cd t = true.
Lemma encode_list_shape cd (P : rvalue -> Prop) f l : shape_enc cd P f -> forall s ts s', all_values P (re_heap s) -> encode_list f l s = OK (ts, s') ->
  all_values P (re_heap s') /\ forallb (shape cd) ts = true.
Proof.
  intros Hf. induction l as [|p l IH]; intros s ts s' HA E; cbn [encode_list] in E; [apply OK_pair' in E as [<- <-]; now split|].
  apply bind_OK in E as ([t s1] & E1 & E). apply bind_OK in E as ([ts2 s2] & E2 & E). apply OK_pair' in E as [<- <-].
  destruct (Hf _ _ _ _ HA E1) as [H1 H2]. destruct (IH _ _ _ H1 E2) as [H3 H4]. split; [exact H3|]. cbn [forallb]. now rewrite H2, H4.
Qed.
Lemma encodeInstance_shape cd (P : rvalue -> Prop) noref fuel : (forall v, P v -> cd = true \/ no_section v) -> shape_enc cd P (encodeInstance env rnd fuel noref).
Proof.
  intros HP. induction fuel as [|fuel IH]; intros p s t s' HA E; [discriminate E|]. cbn [encodeInstance] in E.
  apply bind_OK in E as ([[[r h1] m1] k1] & E1 & E). pose proof (get_ref_values _ _ _ _ _ _ _ _ _ HA E1) as H1.
  destruct (hget h1 p) as [i|] eqn:Ei; [|discriminate E]. apply bind_OK in E as ([ps s2] & E2 & E).
  assert (HF : Forall (fun nv => P (snd nv)) (sort_by fst (i_props i))).
  { apply Forall_forall. intros [n v] Hin. apply (H1 p i n v Ei). eapply Permutation.Permutation_in; [|exact Hin]. apply Permutation.Permutation_sym, SortProofs.sort_perm. }
  destruct (encode_props_shape cd P _ HP HF _ _ _ (H1 : all_values P (re_heap (Rest _ _ _ _))) E2) as [H2 Hps].
  apply bind_OK in E as ([ts s3] & E3 & E). apply OK_pair' in E as [<- <-]. destruct (encode_list_shape cd P _ _ IH _ _ _ H2 E3) as [H3 Hts]. split; [exact H3|].
  unfold newItem, add_tags. destruct noref; cbn [with_attr t_attr SetAttrValue shape forallb fst app node]; rewrite ?forallb_app; cbn [forallb]; rewrite Hps, Hts; destruct cd; reflexivity.
Qed.
Lemma codec_write_shape cd (P : rvalue -> Prop) fuel o h r t h1 : (forall v, P v -> cd = true \/ no_section v) -> all_values P h ->
  codec_write env rnd fuel o h r = OK (t, h1) -> shape cd t = true /\ t_noindent t = false.
Proof.
  intros HP HA E. unfold codec_write in E. destruct r as [r|]; [|discriminate E]. cbv zeta in E. apply bind_OK in E as ([items s] & E1 & E).
  destruct (encode_list_shape cd P _ _ (encodeInstance_shape cd P _ _ HP) _ _ _ (HA : all_values P (re_heap (Rest _ _ _ _))) E1) as [_ Hi].
  apply bind_OK in E as (sh & E2 & E). apply OK_pair' in E as [<- _]. split; [|reflexivity].
  assert (Hsh : forallb (shape cd) sh = true).
  { unfold shared_strings_tag in E2. destruct (re_shared s) as [|kv l]; [injection E2 as <-; reflexivity|]. apply bind_OK in E2 as (ts & Ets & E2). injection E2 as <-.
    cbn [forallb]. rewrite shape_node; [reflexivity|reflexivity|]. refine (all_ok_shape cd _ (fun _ => True) _ _ _ _ Ets).
    - intros kv' t0 _ E0. apply bind_OK in E0 as (x & _ & E0). injection E0 as <-. now destruct cd.
    - now apply Forall_forall. }
  cbn [shape]. rewrite !forallb_app, Hi, Hsh.
  assert (Hm : forallb (shape cd) (if o_nometa o then [] else map (fun kv => Tag (str "Meta") [] [(str "name", fst kv)] false false None (snd kv) false []) (sort_by fst (r_metadata r))) = true).
  { destruct (o_nometa o); [reflexivity|]. apply forallb_forall. intros x Hx. apply in_map_iff in Hx as (kv & <- & _). now destruct cd. }
  rewrite Hm. destruct (o_noext o), cd; reflexivity.
Qed.
End Codec.

(** ** From the tags to the text *)
Lemma good_ok stop n : good_name n = true -> (forall b, name_char b = true -> ~ In b stop) -> name_ok stop n.
Proof.
  intros H Hs. unfold good_name in H. apply andb_prop in H as [H1 H2]. split; [destruct n; [discriminate H1|easy]|].
  rewrite forallb_forall in H2. apply Forall_forall. intros b Hb. specialize (H2 b Hb). specialize (Hs b H2).
  unfold wordy. unfold name_char in H2. assert (Hn : b <> x3e) by (intros ->; vm_compute in H2; discriminate H2).
  split; [|now split]. revert H2. generalize (b2N b). intros k Hk.
  apply orb_prop in Hk as [Hk|Hk]; [apply orb_prop in Hk as [Hk|Hk]|]; apply andb_prop in Hk as [A B]; apply N.leb_le in A, B; lia.
Qed.
Lemma shape_named cd t : shape cd t = true -> named_tag t.
Proof.
  induction t as [st en at_ em co cdt tx ni ts IH] using tag_ind'. cbn [shape named_tag]. intros H. rewrite !andb_true_iff in H.
  destruct H as ((((((H1 & H2) & H3) & H4) & H5) & H6) & H7). right. split; [apply good_ok; [exact H1|intros b _ []]|]. right.
  clear - IH H7. induction IH as [|t ts Ht _ IHl]; [exact I|]. cbn [forallb] in H7. apply andb_prop in H7 as [A B]. split; [exact (Ht A)|exact (IHl B)].
Qed.
Lemma attrs_quiet l r ws : attributes_text l r ws -> forallb (fun a => good_name (fst a)) l = true -> ws = [].
Proof.
  induction 1 as [|n v e l r ws Hn Hv _ IH|n v l r ws Hn _ IH]; intros H; [reflexivity| |]; cbn [forallb fst] in H; apply andb_prop in H as [A B]; auto.
  exfalso. apply Hn, good_ok; [exact A|]. intros b Hb [<-|[]]. vm_compute in Hb. discriminate Hb.
Qed.
Lemma end_quiet st en fin ws : end_name st en fin ws -> nonempty en = false -> ws = [].
Proof. intros H He. destruct H as [|n [Hn _]|n Hn _]; [reflexivity|reflexivity|now destruct n]. Qed.
Lemma tags_quiet p i : (forall d loose t r ws, tag_text p i d loose t r ws -> forall cd, shape cd t = true -> ws = []) /\
  (forall d loose sep fin ts r ws, tags_text p i d loose sep fin ts r ws -> forall cd, forallb (shape cd) ts = true -> ws = []).
Proof.
  apply tag_text_both.
  all: intros.
  all: repeat match goal with H : shape _ _ = true |- _ => cbn [shape] in H; rewrite !andb_true_iff in H; destruct H as ((((((? & ?) & ?) & ?) & ?) & ?) & ?) end.
  all: repeat match goal with H : negb (nonempty ?e) = true |- _ => apply negb_true_iff in H end.
  all: repeat match goal with
    | H : end_name _ _ _ ?ws, H' : nonempty _ = false |- _ => apply end_quiet in H; [subst ws|exact H']
    | H : attributes_text _ _ ?ws |- _ => apply attrs_quiet in H; [subst ws|assumption]
    end.
  all: cbn [app]; try reflexivity; eauto.
  - cbn [forallb] in *. rewrite andb_true_r in *. eauto.
  - match goal with H : forallb _ (_ :: _ :: _) = true |- _ => change (shape cd t && forallb (shape cd) (t' :: ts) = true) in H; apply andb_prop in H as [A B] end.
    rewrite (H0 _ A), (H2 _ B). reflexivity.
Qed.

(** Printable ASCII and line ends. *)
Definition visible (b : byte) : Prop := (0x20 <= b2N b <= 0x7e)%N \/ In b [x0a; x0d].
Definition visibleb (b : byte) : bool := ((0x20 <=? b2N b) && (b2N b <=? 0x7e))%N || Byte.eqb b x0a || Byte.eqb b x0d.
Lemma visible_b b : visibleb b = true -> visible b.
Proof.
  unfold visibleb, visible. intros E. apply orb_prop in E as [E|E]; [apply orb_prop in E as [E|E]|].
  - left. apply andb_prop in E as [E1 E2]. apply N.leb_le in E1, E2. lia.
  - right. apply Byte.byte_dec_bl in E. cbn. auto.
  - right. apply Byte.byte_dec_bl in E. cbn. auto.
Qed.
Lemma all_visible l : forallb visibleb l = true -> Forall visible l.
Proof. rewrite forallb_forall, Forall_forall. intros H b Hb. apply visible_b, H, Hb. Qed.
Lemma numeral_visible ds : forall a n, numeral 10 a ds n -> Forall visible ds.
Proof.
  induction ds as [|b ds IH]; intros a n H; inversion H; subst; constructor; [|eauto].
  match goal with H : digit_of _ _ _ |- _ => apply digit10 in H as [? ?] end. left. lia.
Qed.
Lemma name_visible stop n : name_ok stop n -> Forall visible n.
Proof. intros [_ H]. eapply Forall_impl; [|exact H]. intros b [Hb _]. left. lia. Qed.
Lemma byte_visible b e : byte_text b e -> Forall visible e.
Proof.
  intros H. destruct H as [n b Hin|b Hr Hn|b ds Hr Hn Hd].
  - repeat destruct Hin as [E|Hin]; try contradiction; injection E as <- <-; apply all_visible; reflexivity.
  - constructor; [exact Hr|constructor].
  - constructor; [left; vm_compute; split; discriminate|]. constructor; [left; vm_compute; split; discriminate|].
    apply Forall_app. split; [exact (numeral_visible _ _ _ (proj1 (proj2 Hd)))|apply all_visible; reflexivity].
Qed.
Lemma plain_visible s r : plain_text s r -> Forall visible r.
Proof. induction 1 as [|b e s r H _ IH]; [constructor|]. apply Forall_app. split; [exact (byte_visible _ _ H)|exact IH]. Qed.
Lemma element_visible s r : element_text s r -> Forall visible r.
Proof.
  induction 1 as [s r H P|b ds s r Hw Hd _ IH]; [exact (plain_visible _ _ P)|].
  apply (Forall_app visible [x26; x23]). split; [apply all_visible; reflexivity|]. apply Forall_app. split; [exact (numeral_visible _ _ _ (proj1 (proj2 Hd)))|].
  constructor; [apply visible_b; reflexivity|exact IH].
Qed.
Lemma attributes_visible l r ws : attributes_text l r ws -> Forall visible r.
Proof.
  induction 1 as [|n v e l r ws Hn Hv _ IH|n v l r ws Hn _ IH]; [constructor| |exact IH].
  constructor; [apply visible_b; reflexivity|]. apply Forall_app. split; [exact (name_visible _ _ Hn)|].
  apply (Forall_app visible [x3d; x22]). split; [apply all_visible; reflexivity|]. apply Forall_app. split; [exact (plain_visible _ _ Hv)|].
  constructor; [apply visible_b; reflexivity|exact IH].
Qed.
Lemma end_visible st en fin ws : name_ok [] st -> end_name st en fin ws -> Forall visible fin.
Proof. intros Hs H. destruct H as [|n Hn|n _ _]; [exact (name_visible _ _ Hs)|exact (name_visible _ _ Hn)|exact (name_visible _ _ Hs)]. Qed.
Section Visible.
Variable (p i : bytes).
Definition shown (b : byte) : Prop := visible b \/ In b p \/ In b i.
Lemma vis l : Forall visible l -> Forall shown l.
Proof. intros H. eapply Forall_impl; [|exact H]. now left. Qed.
Lemma line_shown d r : new_line p i d r -> Forall shown r.
Proof.
  intros H. destruct H as [|d _]; [constructor|]. constructor; [left; apply visible_b; reflexivity|]. apply Forall_app. split.
  - apply Forall_forall. intros b Hb. right. now left.
  - induction d as [|d IH]; [constructor|]. cbn [repeat concat]. apply Forall_app. split; [|exact IH]. apply Forall_forall. intros b Hb. right. now right.
Qed.
Lemma cdata_shown cd c rc : cdata_text c rc -> (cd || match c with None => true | _ => false end) = true -> cd = false -> Forall shown rc.
Proof. intros [|x] H ->; [constructor|discriminate H]. Qed.
Lemma tags_shown : (forall d loose t r ws, tag_text p i d loose t r ws -> shape false t = true -> Forall shown r) /\
  (forall d loose sep fin ts r ws, tags_text p i d loose sep fin ts r ws -> forallb (shape false) ts = true -> Forall shown sep -> Forall shown fin -> Forall shown r).
Proof.
  apply tag_text_both.
  all: intros.
  all: repeat match goal with H : shape _ _ = true |- _ => cbn [shape] in H; rewrite !andb_true_iff in H; destruct H as ((((((? & ?) & ?) & ?) & ?) & ?) & ?) end.
  all: try discriminate.
  all: repeat match goal with
    | H : name_ok [] ?st, H' : end_name ?st _ _ _ |- _ => pose proof (vis _ (name_visible _ _ H)); pose proof (vis _ (end_visible _ _ _ _ H H')); clear H H'
    | H : attributes_text _ _ _ |- _ => apply attributes_visible, vis in H
    | H : element_text _ _ |- _ => apply element_visible, vis in H
    | H : new_line _ _ _ _ |- _ => apply line_shown in H
    | H : cdata_text _ _ |- _ => eapply cdata_shown in H; [|eassumption|reflexivity]
    end.
  all: repeat first [assumption | apply Forall_nil | apply Forall_app; split | apply Forall_cons; [left; apply visible_b; reflexivity|]].
  - match goal with H : forallb _ _ = true -> _ |- _ => apply H; [assumption|constructor|constructor] end.
  - match goal with H : forallb _ _ = true -> _ |- _ => apply H; assumption end.
  - cbn [forallb] in *. rewrite andb_true_r in *. auto.
  - cbn [forallb] in *. rewrite !andb_true_iff in *. tauto.
  - match goal with H : forallb _ (_ :: _ :: _) = true |- _ => change (shape false t && forallb (shape false) (t' :: ts) = true) in H; apply andb_prop in H as [? ?] end. auto.
Qed.
End Visible.

(** The indentation of the encoder: a tab, unless another is given or the
    default is switched off. *)
Inductive indent_used (e : xencoder) : bytes -> Prop :=
| Indent_given i : x_indent e = i -> i <> [] -> indent_used e i
| Indent_default : x_indent e = [] -> x_nodefault e = false -> indent_used e [x09]
| Indent_off : x_indent e = [] -> x_nodefault e = true -> indent_used e [].
Lemma indent_is e : indent_used e (if negb (nonempty (x_indent e)) && negb (x_nodefault e) then [x09] else x_indent e).
Proof.
  destruct (x_indent e) as [|a l] eqn:E; cbn [nonempty negb andb]; [destruct (x_nodefault e) eqn:En; cbn [negb]|].
  - now apply Indent_off.
  - now apply Indent_default.
  - now apply Indent_given.
Qed.
(** What Encode writes is the text of the tags that the codec makes, in the
    encoder's layout, and there are no warnings. *)
Theorem C74_encode : forall fuel env rnd e h r ws out h1,
  xml_encode fuel env rnd e h r = OK (ws, out, h1) ->
  ws = [] /\
  exists t indent, codec_write env rnd fuel (x_opts e) h r = OK (t, h1) /\ indent_used e indent /\
    document_text (Doc (x_prefix e) indent (x_suffix e) (x_noroot e) (Some t) []) out [].
Proof.
  intros fuel env rnd e h r ws out h1 E. unfold xml_encode in E. apply bind_OK in E as ([t h'] & E1 & E).
  destruct (codec_write_shape env rnd true (fun _ => True) _ _ _ _ _ _ (fun _ _ => or_introl eq_refl) (fun _ _ _ _ _ _ => I) E1) as [Hs Hn].
  set (d := Doc _ _ _ _ _ _) in E. destruct (WriteTo d) as [w o] eqn:Ew. apply OK_pair' in E as [E <-]. apply pair_equal_spec in E as [<- <-].
  assert (HN : forall t0, doc_root d = Some t0 -> named_root (doc_exclude d) t0).
  { intros t0 H0. injection H0 as <-. unfold named_root. cbn [doc_exclude d]. pose proof (shape_named _ _ Hs) as H. destruct (x_noroot e); [|exact H].
    right. destruct t as [st en at_ em co cdt tx ni ts]. cbn [t_tags]. cbn [shape] in Hs. rewrite !andb_true_iff in Hs. destruct Hs as (_ & Hs).
    clear - Hs. induction ts as [|t ts IH]; [exact I|]. cbn [forallb] in Hs. apply andb_prop in Hs as [A B]. split; [exact (shape_named _ _ A)|exact (IH B)]. }
  apply (proj2 (C74_text d o w HN)) in Ew.
  assert (Hw : w = []).
  { destruct Ew as (r0 & Hr & _). cbn [doc_exclude doc_prefix doc_indent d] in Hr. destruct Hr as [t r0 ws0 H|st en at_ em cd tx ni ts r0 H|st en at_ em cd tx ni ts rc rt rs ws0 sep _ _ _ _ H].
    - exact (proj1 (tags_quiet _ _) _ _ _ _ _ H true Hs).
    - reflexivity.
    - cbn [shape] in Hs. rewrite !andb_true_iff in Hs. destruct Hs as (_ & Hs). exact (proj2 (tags_quiet _ _) _ _ _ _ _ _ _ H true Hs). }
  subst w. split; [reflexivity|]. exists t, (doc_indent d). split; [exact E1|]. split; [apply indent_is|exact Ew].
Qed.
(** Where no protected string has "]]>" in it, what stands between prefix and
    suffix is printable ASCII and line ends, but for the indentation. *)
Definition without_sections (h : heap) : Prop :=
  forall p i n s, hget h p = Some i -> In (n, RProtectedString s) (i_props i) -> forall a b, s <> a ++ str "]]>" ++ b.
Lemma drop_prefix_app p : forall l r, drop_prefix p l = Some r -> l = p ++ r.
Proof.
  induction p as [|a p IH]; intros l r E; cbn [drop_prefix] in E; [now injection E as ->|]. destruct l as [|b l]; [discriminate E|].
  destruct (Byte.eqb a b) eqn:Eb; [|discriminate E]. apply Byte.byte_dec_bl in Eb as ->. cbn. now rewrite (IH _ _ E).
Qed.
Lemma has_end_false s : (forall a b, s <> a ++ str "]]>" ++ b) -> has_cdata_end s = false.
Proof.
  induction s as [|c s IH]; intros H; [reflexivity|]. cbn [has_cdata_end]. destruct (drop_prefix (str "]]>") (c :: s)) as [r|] eqn:E.
  - exfalso. apply (H [] r). exact (drop_prefix_app _ _ _ E).
  - apply IH. intros a b Hs. apply (H (c :: a) b). cbn. now rewrite Hs.
Qed.
Theorem C74_printable : forall fuel env rnd e h r ws out h1, without_sections h ->
  xml_encode fuel env rnd e h r = OK (ws, out, h1) ->
  exists body indent, out = x_prefix e ++ body ++ x_suffix e /\ indent_used e indent /\
    Forall (fun b => (0x20 <= b2N b <= 0x7e)%N \/ In b [x0a; x0d] \/ In b (x_prefix e) \/ In b indent) body.
Proof.
  intros fuel env rnd e h r ws out h1 Hh E. destruct (C74_encode _ _ _ _ _ _ _ _ _ E) as (_ & t & i & E1 & Hi & (r0 & Hr & Eo)).
  assert (Hs : shape false t = true).
  { refine (proj1 (codec_write_shape env rnd false no_section _ _ _ _ _ _ (fun _ H => or_intror H) _ E1)).
    intros p j n v Hp Hin. destruct v; try exact I. exact (has_end_false _ (Hh p j n _ Hp Hin)). }
  exists r0, i. split; [exact Eo|]. split; [exact Hi|]. cbn [doc_exclude doc_prefix doc_indent] in Hr.
  assert (G : Forall (shown (x_prefix e) i) r0).
  { destruct Hr as [t r0 ws0 H|st en at_ em cd tx ni ts r0 H|st en at_ em cd tx ni ts rc rt rs ws0 sep Hni Hni' Hc Ht H].
    - exact (proj1 (tags_shown _ _) _ _ _ _ _ H Hs).
    - cbn [shape] in Hs. rewrite !andb_true_iff in Hs. destruct Hs as ((((((? & ?) & ?) & ?) & ?) & ?) & ?). discriminate.
    - cbn [shape] in Hs. rewrite !andb_true_iff in Hs. destruct Hs as ((_ & Hcd) & Hs).
      apply Forall_app. split; [exact (cdata_shown _ _ false _ _ Hc Hcd eq_refl)|]. apply Forall_app. split; [exact (vis _ _ _ (element_visible _ _ Ht))|].
      refine (proj2 (tags_shown _ _) _ _ _ _ _ _ _ H Hs _ _); [|constructor].
      destruct ni; [rewrite (Hni eq_refl); constructor|exact (line_shown _ _ _ _ (Hni' eq_refl))]. }
  eapply Forall_impl; [|exact G]. intros b [[H|H]|[H|H]]; auto.
Qed.

(** ** Witnesses *)
Definition quotes (s : string) : bytes := map (fun b => if Byte.eqb b x60 then x22 else b) (str s).
Definition small : heap := [Inst (str "Part") (str "R1") false [(str "n", RInt (-5)); (str "Name", RString [x20; x41; x7f; x3c; x20])] [2];
                            Inst (str "Folder") (str "R2") false [] []].
Definition ex_out (prefix indent suffix : bytes) (nodefault noroot : bool) (h : heap) : bytes :=
  match xml_encode 9 plain_env counter (XEncoder (XOpts false true true false) prefix indent nodefault suffix noroot) h (Some (Root [1] [])) with
  | OK (_, out, _) => out
  | _ => []
  end.
(** White space and 0x7f by their codes; one line, and lines with a prefix. *)
Example C74_one_line : ex_out [] [] (str "end") true true small =
  quotes "<Item class=`Part` referent=`R1`><Properties><string name=`Name`>&#32;A&#127;&lt; </string><int name=`n`>-5</int></Properties><Item class=`Folder` referent=`R2`><Properties></Properties></Item></Item>end".
Proof. vm_compute. reflexivity. Qed.
Example C74_lines : map (fun b => if Byte.eqb b x0a then x7c else b) (ex_out [x2e] [] [] true false small) =
  quotes ".<roblox xmlns:xmime=`http://www.w3.org/2005/05/xmlmime` xmlns:xsi=`http://www.w3.org/2001/XMLSchema-instance` xsi:noNamespaceSchemaLocation=`http://www.roblox.com/roblox.xsd` version=`4`>|.<Item class=`Part` referent=`R1`>|.<Properties>|.<string name=`Name`>&#32;A&#127;&lt; </string>|.<int name=`n`>-5</int>|.</Properties>|.<Item class=`Folder` referent=`R2`>|.<Properties></Properties>|.</Item>|.</Item>|.</roblox>".
Proof. vm_compute. reflexivity. Qed.
Example C74_default : map (fun b => if Byte.eqb b x0a then x7c else if Byte.eqb b x09 then x5f else b) (ex_out [] [] [] false true small) =
  quotes "<Item class=`Part` referent=`R1`>|_<Properties>|__<string name=`Name`>&#32;A&#127;&lt; </string>|__<int name=`n`>-5</int>|_</Properties>|_<Item class=`Folder` referent=`R2`>|__<Properties></Properties>|_</Item>|</Item>".
Proof. vm_compute. reflexivity. Qed.
Example C74_witness : without_sections small /\ exists ws out h1,
  xml_encode 9 plain_env counter std small (Some (Root [1] [])) = OK (ws, out, h1) /\ (300 < length out)%nat.
Proof.
  split.
  - intros p i n s Hp Hin. destruct p as [|[|[|p]]]; try discriminate Hp; cbn in Hp.
    + injection Hp as <-. cbn in Hin. destruct Hin as [Hin|[Hin|[]]]; discriminate Hin.
    + injection Hp as <-. destruct Hin.
    + now destruct p.
  - destruct (xml_encode 9 plain_env counter std small (Some (Root [1] []))) as [[[ws out] h1]|x| |] eqn:E; [|destruct x|vm_compute in E; discriminate E|vm_compute in E; discriminate E].
    exists ws, out, h1. split; [reflexivity|]. vm_compute in E. injection E as <- <- <-. vm_compute. repeat constructor.
Qed.
(** A protected string with "]]>" is written as it is. *)
Theorem C74_section_refuted : exists h ws out h1 body,
  xml_encode 9 plain_env counter std h (Some (Root [1] [])) = OK (ws, out, h1) /\ out = x_prefix std ++ body ++ x_suffix std /\ In x01 body.
Proof.
  exists [Inst (str "Script") (str "R") false [(str "Source", RProtectedString (x01 :: str "]]>"))] []].
  destruct (xml_encode 9 plain_env counter std [Inst (str "Script") (str "R") false [(str "Source", RProtectedString (x01 :: str "]]>"))] []] (Some (Root [1] []))) as [[[ws out] h1]|x| |] eqn:E;
    [|destruct x|vm_compute in E; discriminate E|vm_compute in E; discriminate E].
  exists ws, out, h1, out. split; [reflexivity|]. split; [cbn; now rewrite app_nil_r|].
  assert (H : existsb (Byte.eqb x01) out = true) by (vm_compute in E; injection E as <- <- <-; vm_compute; reflexivity).
  apply existsb_exists in H as (b & Hb & H). apply Byte.byte_dec_bl in H as <-. exact Hb.
Qed.
(** Without a name, a last tag leaves the depth of the next line as it was;
    the codec makes no such tags (C74_encode). *)
Example C74_drift : map (fun b => if Byte.eqb b x0a then x7c else if Byte.eqb b x09 then x5f else b)
    (snd (WriteTo (Doc [] [x09] [] false (Some (node (str "a") [node (str "b") [node [] []]; node (str "c") []])) []))) =
  str "<a>|_<b>|__</b>|__<c></c>|_</a>".
Proof. vm_compute. reflexivity. Qed.

Print Assumptions C74_text.
Print Assumptions C74_encode.
Print Assumptions C74_printable.
Print Assumptions C74_section_refuted.
