(** PropXmlResaveEx.v - a tree whose file is saved the same, and trees whose
    files are not. *)
From Verif Require Import Base RbxlValues RbxValues Tree SpecValues SpecTree SpecCodec TreeProofs PropTree XmlText XmlDoc XmlCodec SpecXml XmlFloats XmlFloatsFit SpecXmlValues
  SpecXmlResave PropXmlValues PropXmlDecode PropXml PropXmlEx PropXmlResave XmlSettle PropXmlSettle.
Local Notation string := String.string.
Local Open Scope N_scope.

(** Values that do not come back but keep their text: a ray, a brick color, a
    number with many digits, a NaN. *)
Definition rs_folder : inst := Inst (str "Folder") [] true
  [(str "Ray", RRay (Vec3 0x3f800000 0 0) (Vec3 0 0x3f800000 0)); (str "Color", RBrickColor 194); (str "Pi", RDouble 0x400921FB54442D18); (str "NaN", RFloat 0x7f800001);
   (str "Range", RNumberRange 0x3dcccccf 0x3f800000); (str "Blob", RSharedString (str "abc")); (str "Part", RReference 2%nat)] [2%nat].
Definition rs_part : inst := Inst (str "Part") (str "null") false [(str "Parent", RReference 1%nat); (str "Nothing", RReference 0%nat); (str "Face", RFont (str "f") 400 x01 [])] [].
Definition rs_heap : heap := [rs_folder; rs_part].
Definition rs_ts : list rtree := [RNode 1%nat [RNode 2%nat []]].
Definition rs_root : root := Root [1%nat] [(str "b", str "v"); (str "a", str "w")].
Lemma rs_inst x : inst_in rs_heap (fnodes rs_ts) x -> x = rs_folder \/ x = rs_part.
Proof. intros (p & Hp & Hx). cbn in Hp. destruct Hp as [<-|[<-|[]]]; injection Hx as <-; tauto. Qed.
Ltac rs Hx Hf := apply rs_inst in Hx; destruct Hx as [->| ->]; apply mfind_In in Hf; cbn [i_props rs_folder rs_part In] in Hf;
  repeat (destruct Hf as [Hf|Hf]; [try discriminate Hf; injection Hf as <- <-|]); try contradiction.
Lemma rs_forest : forest_at rs_heap rs_ts.
Proof.
  split.
  - repeat (econstructor; try reflexivity).
  - cbn. repeat constructor; cbn; intuition discriminate.
Qed.
Lemma rs_storable : xml_storable rs_heap (fnodes rs_ts).
Proof.
  constructor.
  - intros x Hx. apply rs_inst in Hx. destruct Hx as [->| ->]; (split; [vm_compute; reflexivity|]); cbn; repeat constructor; cbn; intuition discriminate.
  - intros x name v Hx Hf. rs Hx Hf; (split; [vm_compute; reflexivity|]); (split; [|vm_compute; reflexivity]); cbn [wf_rvalue]; wf; vm_compute; reflexivity.
  - intros x name q Hx Hf Hq. apply rs_inst in Hx. destruct Hx as [->| ->]; apply mfind_In in Hf; cbn [i_props rs_folder rs_part In] in Hf;
      repeat (destruct Hf as [Hf|Hf]; [try discriminate Hf|]); try contradiction; injection Hf as _ <-; try (now destruct Hq); eexists; (split; [reflexivity|vm_compute; reflexivity]).
Qed.
Lemma rs_text : text_tree (xe_fl plain_env) rs_heap (fnodes rs_ts) rs_root.
Proof.
  constructor.
  - intros x name v Hx Hf. rs Hx Hf; cbn [text_kept]; try exact I.
    + vm_compute. reflexivity.
    + left. right. vm_compute. discriminate.
    + split; left; right; vm_compute; discriminate.
    + vm_compute. intuition discriminate.
  - intros x Hx. apply rs_inst in Hx. destruct Hx as [->| ->]; vm_compute; reflexivity.
  - intros x name q Hx Hf Hq. apply rs_inst in Hx. destruct Hx as [->| ->]; apply mfind_In in Hf; cbn [i_props rs_folder rs_part In] in Hf;
      repeat (destruct Hf as [Hf|Hf]; [try discriminate Hf|]); try contradiction; injection Hf as _ <-; try (now destruct Hq); cbn; tauto.
  - intros k v Hk. cbn [r_metadata rs_root In] in Hk. repeat (destruct Hk as [Hk|Hk]; [injection Hk as <- <-|]); try contradiction; (split; [vm_compute; reflexivity|vm_compute; intuition discriminate]).
Qed.
(** The hypotheses of C100 hold of this tree; the ray, the brick color and the
    numbers of the loaded tree are others. *)
Example C100_witness : strconv_ok (xe_fl plain_env) /\ (forall k, length (counter k) = 16%nat) /\ never_repeats (length rs_heap) counter /\
  forest_at rs_heap rs_ts /\ r_instances rs_root = map rroot rs_ts /\ xml_storable rs_heap (fnodes rs_ts) /\ no_collision (xe_hash plain_env) rs_heap (fnodes rs_ts) /\
  NoDup (map fst (r_metadata rs_root)) /\ text_tree (xe_fl plain_env) rs_heap (fnodes rs_ts) rs_root /\
  exists out h1 r' h' x', xml_encode 5 plain_env counter std rs_heap (Some rs_root) = OK ([], out, h1) /\ (1000 < length out)%nat /\
    xml_decode plain_env false out XEOF = OK (r', h', []) /\ hget h' 1%nat = Some x' /\
    mfind (i_props x') (str "Ray") = Some (RRay (Vec3 0x3f800000 0 0) (Vec3 0x3f800000 0 0)) /\ mfind (i_props x') (str "Color") = Some (RInt 194) /\
    mfind (i_props x') (str "NaN") = Some (RFloat nan32) /\ mfind (i_props x') (str "Part") = Some (RReference 2%nat).
Proof.
  split; [exact plain_strconv_ok|]. split; [exact counter_16|]. split; [eapply never_repeats_le; [|exact counter_never_repeats]; cbn; lia|].
  split; [exact rs_forest|]. split; [reflexivity|]. split; [exact rs_storable|]. split.
  { intros s s' Hs Hs' E. vm_compute in Hs, Hs'. repeat (destruct Hs as [Hs|Hs]; [|]); repeat (destruct Hs' as [Hs'|Hs']; [|]); try contradiction; subst; try reflexivity; discriminate E. }
  split; [repeat constructor; cbn; intuition discriminate|]. split; [exact rs_text|].
  do 5 eexists. split; [vm_compute; reflexivity|]. split; [vm_compute; lia|]. split; [vm_compute; reflexivity|]. split; [reflexivity|]. repeat split; reflexivity.
Qed.

(** ** Where it fails *)
(** The text of a tree, and the text after loading it and saving it. *)
Definition two_texts (e : xencoder) (h : heap) (r : root) : option (bytes * bytes) :=
  match xml_encode 10 plain_env counter e h (Some r) with
  | OK (_, out, _) =>
      match xml_decode plain_env false out XEOF with
      | OK (r', h', _) => match xml_encode 10 plain_env counter e h' (Some r') with OK (_, out', _) => Some (out, out') | _ => None end
      | _ => None
      end
  | _ => None
  end.
Definition changes (e : xencoder) (h : heap) (r : root) : Prop := exists out out', two_texts e h r = Some (out, out') /\ out' <> out.
Ltac changed := eexists _, _; split; [vm_compute; reflexivity|]; let H := fresh in (intros H; apply (f_equal (@length byte)) in H; vm_compute in H; discriminate H) ||
  (intros H; revert H; match goal with |- ?a = ?b -> False => let x := constr:(bytes_eqb a b) in let y := eval vm_compute in x in constr_eq y false; intros H; apply (f_equal (fun z => bytes_eqb z b)) in H; vm_compute in H; discriminate H end).
(** A reference to an instance outside the tree becomes null. *)
Theorem C100_outside_refuted : changes std [Inst (str "A") (str "a") false [(str "v", RReference 2%nat)] []; Inst (str "B") (str "b") false [] []] one_root.
Proof. changed. Qed.
(** Without referents references become null. *)
Theorem C100_noref_refuted : changes (XEncoder (XOpts true false false false) [] [] false [] false) (one (RReference 1%nat)) one_root.
Proof. changed. Qed.
(** Large tokens and brick colors, fonts without a style name or with a large
    weight, carriage returns. *)
Theorem C100_values_refuted :
  changes std (one (RToken 0x80000001)) one_root /\ changes std (one (RBrickColor 0x80000001)) one_root /\
  changes std (one (RFont (str "f") 400 x02 [])) one_root /\ changes std (one (RFont (str "f") 0x8000 x00 [])) one_root /\
  changes std (one (RString (str "a" ++ [x0d] ++ str "b"))) one_root.
Proof. repeat split; changed. Qed.
(** The hypotheses of C100_settles hold of the tree of C50_witness, whose text
    changes once: a reference leaves the tree. *)
Example C100_settles_witness : (forall x name v, inst_in xf_heap (fnodes xf_ts) x -> mfind (i_props x) name = Some v -> settles v) /\
  NoDup (map fst (r_metadata xf_root)) /\ Forall (fun kv => no_cr (fst kv) = true) (r_metadata xf_root) /\ changes std xf_heap xf_root.
Proof.
  split.
  { intros x name v Hx Hf. apply xf_inst in Hx. destruct Hx as [->|[->|[->| ->]]]; apply mfind_In in Hf; cbn [i_props xf_workspace xf_part xf_camera xf_folder In] in Hf;
      repeat (destruct Hf as [Hf|Hf]; [injection Hf as <- <-|]); try contradiction; (split; cbn [normal_value]; try exact I; try discriminate). }
  split; [repeat constructor; cbn; intuition discriminate|]. split; [repeat constructor|]. changed.
Qed.
