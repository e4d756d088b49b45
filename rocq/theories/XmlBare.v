(** XmlBare.v - decoding a document does not look at end names and
    indentation flags. *)
From Verif Require Import Base RbxlValues RbxValues Tree RbxlCodec XmlText XmlDoc XmlCodec SpecXml XmlLayout.
Local Notation string := String.string.

Lemma bare_start t : t_start (bare t) = t_start t.  Proof. now destruct t. Qed.
Lemma bare_attr t : t_attr (bare t) = t_attr t.  Proof. now destruct t. Qed.
Lemma bare_text t : t_text (bare t) = t_text t.  Proof. now destruct t. Qed.
Lemma bare_cdata t : t_cdata (bare t) = t_cdata t.  Proof. now destruct t. Qed.
Lemma bare_tags t : t_tags (bare t) = map bare (t_tags t).  Proof. now destruct t. Qed.
Lemma bare_content t : getContent (bare t) = getContent t.
Proof. unfold getContent. now rewrite bare_cdata, bare_text. Qed.

Definition bval (v : cval) : cval := match v with VT t => VT (bare t) | v => v end.
Definition bvals (l : cvals) : cvals := map (fun nv => (fst nv, bval (snd nv))) l.
Lemma getFrom_loop_bare fl want tags : forall seen vals,
  getFrom_loop fl want seen (bvals vals) (map bare tags) =
  (fst (getFrom_loop fl want seen vals tags), bvals (snd (getFrom_loop fl want seen vals tags))).
Proof.
  induction tags as [|t tags IH]; intros seen vals; [reflexivity|].
  cbn [map getFrom_loop]. rewrite bare_start, bare_content. destruct (mfind want (t_start t)) as [k|]; [|apply IH].
  destruct (existsb (bytes_eqb (t_start t)) seen); [apply IH|].
  destruct k.
  - destruct (ParseInt 32 (getContent t)); [|reflexivity..].
    exact (IH (t_start t :: seen) ((t_start t, VZ (a mod 256)%Z) :: vals)).
  - destruct (ParseInt 16 (getContent t)); [|reflexivity..]. exact (IH (t_start t :: seen) ((t_start t, VZ a) :: vals)).
  - destruct (ParseInt 32 (getContent t)); [|reflexivity..]. exact (IH (t_start t :: seen) ((t_start t, VZ a) :: vals)).
  - destruct (fl_parse32 fl (getContent t)) as [f|]; [exact (IH (t_start t :: seen) ((t_start t, VF f) :: vals))|apply IH].
  - destruct (FontStyleFromString _) as [f|]; [exact (IH (t_start t :: seen) ((t_start t, VZ (Z.of_N f)) :: vals))|reflexivity].
  - destruct (ParseInt 16 (getContent t)); [|reflexivity..]. exact (IH (t_start t :: seen) ((t_start t, VZ (a mod 2 ^ 16)%Z) :: vals)).
  - exact (IH (t_start t :: seen) ((t_start t, VT t) :: vals)).
Qed.
Lemma getFrom_bare fl want t : getFrom fl want (bare t) = (fst (getFrom fl want t), bvals (snd (getFrom fl want t))).
Proof. unfold getFrom. rewrite bare_tags. exact (getFrom_loop_bare fl want (t_tags t) [] []). Qed.
Lemma mfind_bvals l n : mfind (bvals l) n = option_map bval (mfind l n).
Proof. induction l as [|[m v] l IH]; [reflexivity|]. cbn. now destruct (bytes_eqb m n). Qed.
Lemma vz_bare l n : vz (bvals l) n = vz l n.
Proof. unfold vz. rewrite mfind_bvals. now destruct (mfind l (str n)) as [[]|]. Qed.
Lemma vf_bare l n : vf (bvals l) n = vf l n.
Proof. unfold vf. rewrite mfind_bvals. now destruct (mfind l (str n)) as [[]|]. Qed.
Lemma vt_bare l n : vt (bvals l) n = option_map bare (vt l n).
Proof. unfold vt. rewrite mfind_bvals. now destruct (mfind l (str n)) as [[]|]. Qed.
Lemma get_bool_bare discard t : get_bool discard (bare t) = get_bool discard t.
Proof. unfold get_bool. now rewrite bare_content. Qed.
Lemma get_content_bare discard t : get_content discard (bare t) = get_content discard t.
Proof.
  unfold get_content. rewrite bare_content, bare_tags. destruct (t_tags t) as [|u l]; [reflexivity|]. cbn [map].
  now rewrite bare_start, bare_content.
Qed.
Lemma get_vec3_bare env t : get_vec3 env (option_map bare t) = get_vec3 env t.
Proof.
  unfold get_vec3, getFrom_opt. destruct t as [t|]; [|reflexivity]. cbn [option_map]. rewrite getFrom_bare.
  destruct (getFrom _ _ t) as [ok v]. cbn [fst snd]. now rewrite !vf_bare.
Qed.
Lemma get_vec2_bare env t : get_vec2 env (option_map bare t) = get_vec2 env t.
Proof.
  unfold get_vec2, getFrom_opt. destruct t as [t|]; [|reflexivity]. cbn [option_map]. rewrite getFrom_bare.
  destruct (getFrom _ _ t) as [ok v]. cbn [fst snd]. now rewrite !vf_bare.
Qed.
Lemma map_vf_bare v l : map (vf (bvals v)) l = map (vf v) l.
Proof. apply map_ext. apply vf_bare. Qed.
Ltac bare_from := rewrite getFrom_bare; match goal with |- context [getFrom ?f ?w ?t] => destruct (getFrom f w t) as [? ?] end; cbn [fst snd].
Lemma getValue_bare env discard t typ : getValue env discard (bare t) typ = getValue env discard t typ.
Proof.
  unfold getValue. rewrite bare_content, bare_text.
  destruct (typ =? TypeAxes)%N; [bare_from; now rewrite vz_bare|].
  destruct (typ =? TypeBinaryString)%N; [reflexivity|].
  destruct (typ =? TypeBool)%N; [now rewrite get_bool_bare|].
  destruct (typ =? TypeBrickColor)%N; [reflexivity|].
  destruct (typ =? TypeCFrame)%N; [bare_from; now rewrite !vf_bare, map_vf_bare|].
  destruct (typ =? TypeColor3)%N; [destruct (nonempty (getContent t)); [reflexivity|bare_from; now rewrite !vf_bare]|].
  destruct (typ =? TypeContent)%N; [now rewrite get_content_bare|].
  destruct (typ =? TypeDouble)%N; [reflexivity|].
  destruct (typ =? TypeFaces)%N; [bare_from; now rewrite vz_bare|].
  destruct (typ =? TypeFloat)%N; [reflexivity|].
  destruct (typ =? TypeInt)%N; [reflexivity|].
  destruct (typ =? TypeProtectedString)%N; [reflexivity|].
  destruct (typ =? TypeRay)%N; [bare_from; now rewrite !vt_bare, !get_vec3_bare|].
  destruct (typ =? TypeReference)%N; [reflexivity|].
  destruct (typ =? TypeString)%N; [reflexivity|].
  destruct (typ =? TypeToken)%N; [reflexivity|].
  destruct (typ =? TypeUDim)%N; [bare_from; now rewrite vf_bare, vz_bare|].
  destruct (typ =? TypeUDim2)%N; [bare_from; now rewrite !vf_bare, !vz_bare|].
  destruct (typ =? TypeVector2)%N; [change (Some (bare t)) with (option_map bare (Some t)); now rewrite get_vec2_bare|].
  destruct (typ =? TypeVector2int16)%N; [bare_from; now rewrite !vz_bare|].
  destruct (typ =? TypeVector3)%N; [change (Some (bare t)) with (option_map bare (Some t)); now rewrite get_vec3_bare|].
  destruct (typ =? TypeVector3int16)%N; [bare_from; now rewrite !vz_bare|].
  destruct (typ =? TypeNumberSequence)%N; [reflexivity|].
  destruct (typ =? TypeColorSequence)%N; [reflexivity|].
  destruct (typ =? TypeNumberRange)%N; [reflexivity|].
  destruct (typ =? TypeRect)%N; [bare_from; now rewrite !vt_bare, !get_vec2_bare|].
  destruct (typ =? TypePhysicalProperties)%N.
  { rewrite !getFrom_bare. destruct (getFrom _ (wants CTag _) t) as [ok v]. cbn [fst snd].
    rewrite vt_bare. destruct ok; [|reflexivity]. destruct (vt v "CustomPhysics") as [cp|]; [|reflexivity]. cbn [option_map].
    rewrite get_bool_bare. destruct (get_bool discard cp) as [[]|]; [|reflexivity..].
    destruct (getFrom _ _ t) as [ok2 v2]. cbn [fst snd]. now rewrite !vf_bare. }
  destruct (typ =? TypeColor3uint8)%N; [destruct (nonempty (getContent t)); [reflexivity|bare_from; now rewrite !vz_bare]|].
  destruct (typ =? TypeInt64)%N; [reflexivity|].
  destruct (typ =? TypeSharedString)%N; [reflexivity|].
  destruct (typ =? TypeUniqueId)%N; [reflexivity|].
  destruct (typ =? TypeFont)%N; [|reflexivity].
  rewrite !getFrom_bare. destruct (getFrom _ (wants CTag ["Family"]%string ++ _) t) as [ok v]. cbn [fst snd].
  destruct ok; [|reflexivity]. cbn [negb]. rewrite vt_bare. destruct (vt v "Family") as [fam|]; [|reflexivity]. cbn [option_map].
  rewrite get_content_bare. destruct (get_content discard fam) as [[f|] w]; [|reflexivity].
  destruct (getFrom _ (wants CTag ["CachedFaceId"]%string) t) as [ok2 v2]. cbn [fst snd]. rewrite vt_bare, !vz_bare.
  destruct ok2; [|reflexivity]. destruct (vt v2 "CachedFaceId") as [cf|]; [|reflexivity]. cbn [option_map]. now rewrite get_content_bare.
Qed.
Section Decode.
Variable (env : xenv) (discard : bool).
Lemma getOptional_bare t typ : getOptional env (bare t) typ = option_map (option_map bare) (getOptional env t typ).
Proof.
  unfold getOptional. rewrite bare_tags. destruct (t_tags t) as [|u l] eqn:E; [reflexivity|]. cbn [map].
  destruct (typ =? TypeCFrame)%N; [|reflexivity]. bare_from. rewrite vt_bare. now destruct b.
Qed.
Lemma getProperty_bare t p s : getProperty env discard (bare t) p s = getProperty env discard t p s.
Proof.
  unfold getProperty. rewrite bare_attr, bare_start. destruct (attr_value _ _) as [nm|]; [|reflexivity].
  destruct (GetCanonType (t_start t)) as [typ optional]. destruct optional.
  - rewrite getOptional_bare. destruct (getOptional env t typ) as [[u|]|]; [|reflexivity..]. cbn [option_map].
    rewrite getValue_bare. destruct (getValue env discard u typ) as [[[v|] w]| | |]; [|reflexivity..]. cbn [obind].
    destruct v; try reflexivity. now rewrite bare_content.
  - rewrite getValue_bare. destruct (getValue env discard t typ) as [[[v|] w]| | |]; [|reflexivity..]. cbn [obind].
    destruct v; try reflexivity. now rewrite bare_content.
Qed.
Lemma get_props_bare p tags : forall props s, get_props env discard p (map bare tags) props s = get_props env discard p tags props s.
Proof.
  induction tags as [|t tags IH]; intros props s; [reflexivity|]. cbn [map get_props]. rewrite getProperty_bare.
  destruct (getProperty env discard t p s) as [[r s1]| | |]; [|reflexivity..]. cbn [obind]. apply IH.
Qed.
Lemma items_loop_bare f parent tags : (forall t s, In t tags -> f (bare t) s = f t s) -> forall has props insts s,
  items_loop env discard f parent (map bare tags) has props insts s = items_loop env discard f parent tags has props insts s.
Proof.
  induction tags as [|t tags IH]; intros Hf has props insts s; [reflexivity|]. cbn [map items_loop]. rewrite bare_start, bare_tags.
  assert (IH' := IH (fun u s Hu => Hf u s (or_intror Hu))).
  destruct (bytes_eqb (t_start t) (str "Item")).
  - rewrite (Hf t s (or_introl eq_refl)). destruct (f t s) as [[r s1]| | |]; [|reflexivity..]. cbn [obind]. apply IH'.
  - destruct (bytes_eqb (t_start t) (str "Properties")); [|apply IH']. destruct (has || (parent =? 0)%nat); [apply IH'|].
    rewrite get_props_bare. destruct (get_props env discard parent (t_tags t) props s) as [[r s1]| | |]; [|reflexivity..]. cbn [obind]. apply IH'.
Qed.
Lemma get_item_bare t : forall s, get_item env discard (bare t) s = get_item env discard t s.
Proof.
  induction t as [start end_ attr empty comment cdata tx noind tags IH] using tag_ind'. intros s. cbn [bare get_item].
  destruct (attr_value attr (str "class")) as [class|]; [|reflexivity]. cbv zeta.
  rewrite items_loop_bare; [reflexivity|]. intros t s' Ht. rewrite Forall_forall in IH. now apply IH.
Qed.
Lemma shared_tag_bare strs t h : shared_tag strs (bare t) h = shared_tag strs t h.
Proof. unfold shared_tag. now rewrite bare_start, bare_attr, bare_content. Qed.
Lemma shared_fold_bare strs tags : forall h, fold_left (fun h t => shared_tag strs t h) (map bare tags) h = fold_left (fun h t => shared_tag strs t h) tags h.
Proof. induction tags as [|t tags IH]; intros h; [reflexivity|]. cbn [map fold_left]. now rewrite shared_tag_bare, IH. Qed.
Lemma root_tags_bare strs tags : forall md h, root_tags strs (map bare tags) md h = root_tags strs tags md h.
Proof.
  induction tags as [|t tags IH]; intros md h; [reflexivity|]. cbn [map root_tags].
  rewrite bare_start, bare_attr, bare_text, bare_tags. rewrite shared_fold_bare, !IH. reflexivity.
Qed.
(** The result depends on the bare root tag only. *)
Lemma codec_read_bare p i x ex t w p' i' x' ex' t' : bare t = bare t' ->
  codec_read env discard (Doc p i x ex (Some t) w) = codec_read env discard (Doc p' i' x' ex' (Some t') w).
Proof.
  intros E.
  assert (G : forall t, codec_read env discard (Doc p i x ex (Some t) w) = codec_read env discard (Doc p i x ex (Some (bare t)) w)).
  { clear. intros t. unfold codec_read. cbn [doc_root doc_warn]. rewrite bare_tags. unfold getItems.
    rewrite items_loop_bare; [|intros; apply get_item_bare].
    destruct (items_loop _ _ _ _ _ _ _ _ _) as [[[insts pr] s]| | |]; [|reflexivity..]. cbn [obind]. now rewrite root_tags_bare. }
  rewrite (G t), E, <- (G t'). reflexivity.
Qed.
End Decode.
Lemma bare_bare t : bare (bare t) = bare t.
Proof.
  induction t as [start end_ attr empty comment cdata tx noind tags IH] using tag_ind'. cbn [bare]. f_equal. rewrite map_map.
  apply map_ext_in. intros t Ht. rewrite Forall_forall in IH. now apply IH.
Qed.
Lemma bare_settled t : bare (settled t) = settled t.
Proof.
  induction t as [start end_ attr empty comment cdata tx noind tags IH] using tag_ind'. cbn [bare settled]. f_equal. rewrite map_map.
  apply map_ext_in. intros t Ht. rewrite Forall_forall in IH. now apply IH.
Qed.
