(** PropXmlEx.v - concrete trees that meet the hypotheses of the XML
    theorems, and concrete losses. *)
From Verif Require Import Base RbxlValues RbxValues Tree SpecValues SpecTree SpecCodec XmlText XmlDoc XmlCodec SpecXml XmlFloats XmlFloatsFit SpecXmlValues TreeProofs PropTree PropXmlValues PropXmlDecode PropXml.
Local Notation string := String.string.

Definition std : xencoder := XEncoder (XOpts false false false false) [] [] false [] false.
(** An instance with one property. *)
Definition one (v : rvalue) : heap := [Inst (str "Part") (str "RBX0") false [(str "v", v)] []].
Definition one_root : root := Root [1] [].
(** The properties of the instances in the tree after encoding and decoding. *)
Definition trip (h : heap) (r : root) : option (list (list (bytes * rvalue))) :=
  match xml_encode 10 plain_env counter std h (Some r) with
  | OK (_, out, _) => match xml_decode plain_env false out XEOF with OK (_, h', _) => Some (map i_props h') | _ => None end
  | _ => None
  end.
Definition trip1 (v : rvalue) : option rvalue :=
  match trip (one v) one_root with Some [[(_, v')]] => Some v' | _ => None end.

(** ** A tree *)
Definition xf_workspace : inst := Inst (str "Workspace") [] true [(str "Camera", RReference 3); (str "Blob", RSharedString (str "abc")); (str "Gravity", RFloat 0x43443333)] [2; 3].
Definition xf_part : inst := Inst (str "Part") (str "ref") false
  [(str "Size", RVector3 (Vec3 0x40000000 0x40833333 0x3f800000)); (str "Blob", RSharedString (str "xyz")); (str "Outside", RReference 5);
   (str "Source", RString (str " <a href=""b"">&amp;"));
   (str "Pivot", ROptional TypeCFrame (Some (RCFrame (Vec3 0x3f800000 0 0) [0x3f800000; 0; 0; 0; 0x3f800000; 0; 0; 0; 0x3f800000]%N)));
   (str "Id", RUniqueId (-7)%Z 8 9); (str "Bin", RBinaryString [x00; xff; x0d])] [4].
Definition xf_camera : inst := Inst (str "Camera") (str "null") false [(str "Type", RToken 4)] [].
Definition xf_folder : inst := Inst (str "Folder") [] false [(str "Name", RString (str "f"))] [].
Definition xf_heap : heap := [xf_workspace; xf_part; xf_camera; xf_folder; xf_folder].
Definition xf_ts : list rtree := [RNode 1 [RNode 2 [RNode 4 []]; RNode 3 []]].
Definition xf_root : root := Root [1] [(str "k", str "v")].
Lemma xf_forest : forest_at xf_heap xf_ts.
Proof.
  split.
  - repeat (econstructor; try reflexivity).
  - cbn. repeat constructor; cbn; intuition discriminate.
Qed.
Lemma xf_inst x : inst_in xf_heap (fnodes xf_ts) x -> x = xf_workspace \/ x = xf_part \/ x = xf_camera \/ x = xf_folder.
Proof. intros (p & Hp & Hx). cbn in Hp. destruct Hp as [<-|[<-|[<-|[<-|[]]]]]; injection Hx as <-; tauto. Qed.
Ltac wf := repeat match goal with
  | |- _ /\ _ => split
  | |- wf_vec3 _ => unfold wf_vec3; cbn [v3x v3y v3z]
  | |- True => exact I
  | |- len32 _ => vm_compute; reflexivity
  | |- f32 _ => vm_compute; reflexivity
  | |- int_range _ _ => unfold int_range; cbn; lia
  | |- Forall f32 [] => apply Forall_nil
  | |- Forall f32 _ => apply Forall_cons
  | |- _ = _ => reflexivity
  end.
Lemma xf_storable : xml_storable xf_heap (fnodes xf_ts).
Proof.
  constructor.
  - intros x Hx. apply xf_inst in Hx. destruct Hx as [->|[->|[->| ->]]]; (split; [vm_compute; reflexivity|]); cbn; repeat constructor; cbn; intuition discriminate.
  - intros x name v Hx Hf. apply xf_inst in Hx. destruct Hx as [->|[->|[->| ->]]]; apply mfind_In in Hf; cbn [i_props xf_workspace xf_part xf_camera xf_folder In] in Hf;
      repeat (destruct Hf as [Hf|Hf]; [injection Hf as <- <-|]); try contradiction;
      (split; [vm_compute; reflexivity|]); (split; [|vm_compute; reflexivity]); cbn [wf_rvalue]; wf.
  - intros x name q Hx Hf Hq. apply xf_inst in Hx. destruct Hx as [->|[->|[->| ->]]]; apply mfind_In in Hf; cbn [i_props xf_workspace xf_part xf_camera xf_folder In] in Hf;
      repeat (destruct Hf as [Hf|Hf]; [try discriminate Hf|]); try contradiction; injection Hf as _ <-; eexists; (split; [reflexivity|vm_compute; reflexivity]).
Qed.
Lemma xf_hash : no_collision (xe_hash plain_env) xf_heap (fnodes xf_ts).
Proof.
  intros s s' Hs Hs' E. vm_compute in Hs, Hs'. repeat (destruct Hs as [Hs|Hs]; [|]); repeat (destruct Hs' as [Hs'|Hs']; [|]); try contradiction; subst; try reflexivity; discriminate E.
Qed.
Lemma plain_floats : floats_ok (xe_fl plain_env).
Proof. exact (strconv_floats_ok plain_strconv plain_strconv_ok). Qed.
Lemma counter_16 k : length (counter k) = 16.
Proof. reflexivity. Qed.
(** The hypotheses of C49 and C50 hold of this tree. *)
Example C50_witness : exists out h1, xml_encode 5 plain_env counter std xf_heap (Some xf_root) = OK ([], out, h1) /\ (1000 < length out)%nat /\
  exists h', xml_decode plain_env false out XEOF = OK (Root [1] [(str "k", str "v")], h', []) /\ length h' = 4.
Proof.
  destruct (xml_encode 5 plain_env counter std xf_heap (Some xf_root)) as [[[ws out] h1]|e| |] eqn:E; [|exact (match e with end)|vm_compute in E; discriminate E|vm_compute in E; discriminate E].
  vm_compute in E. injection E as <- <- <-. eexists _, _. split; [reflexivity|]. split; [vm_compute; lia|]. eexists. split; [vm_compute; reflexivity|reflexivity].
Qed.
Example C50_kept_hypothesis : forall x name v, inst_in xf_heap (fnodes xf_ts) x -> mfind (i_props x) name = Some v -> kept (six (xe_fl plain_env)) (nine (xe_fl plain_env)) v.
Proof.
  intros x name v Hx Hf. apply xf_inst in Hx. destruct Hx as [->|[->|[->| ->]]]; apply mfind_In in Hf; cbn [i_props xf_workspace xf_part xf_camera xf_folder In] in Hf;
    repeat (destruct Hf as [Hf|Hf]; [injection Hf as <- <-|]); try contradiction; cbn [kept]; try exact I.
  - left. vm_compute. discriminate.
  - repeat split; left; vm_compute; discriminate.
  - vm_compute. intuition discriminate.
  - split; [repeat split; left; vm_compute; discriminate|]. repeat (constructor; [left; vm_compute; discriminate|]). constructor.
  - reflexivity.
  - vm_compute. intuition discriminate.
Qed.
Example C49_hypotheses : floats_ok (xe_fl plain_env) /\ (forall k, length (counter k) = 16) /\ never_repeats (length xf_heap) counter /\
  forest_at xf_heap xf_ts /\ r_instances xf_root = map rroot xf_ts /\ xml_storable xf_heap (fnodes xf_ts) /\ length xf_heap <= 5 /\
  blank (x_prefix std) /\ blank (x_indent std) /\ x_noroot std = false /\ no_collision (xe_hash plain_env) xf_heap (fnodes xf_ts).
Proof.
  split; [exact plain_floats|]. split; [exact counter_16|]. split; [eapply never_repeats_le; [|exact counter_never_repeats]; cbn; lia|]. split; [exact xf_forest|].
  split; [reflexivity|]. split; [exact xf_storable|]. split; [cbn; lia|]. split; [reflexivity|]. split; [reflexivity|]. split; [reflexivity|exact xf_hash].
Qed.

(** ** C53: what is lost *)
Local Open Scope N_scope.
(** A double needs 17 digits, nine are written (codec.go:1722-1730); the floats
    of sequences and ranges need nine, six are written (codec.go:1504-1563). *)
Theorem C53_double_refuted : trip1 (RDouble 0x400921FB54442D18) = Some (RDouble 0x400921fb53c8d4f1).
Proof. vm_compute. reflexivity. Qed.
Theorem C53_range_refuted : trip1 (RNumberRange 0x3dcccccf 0x3f800000) = Some (RNumberRange 0x3dcccccd 0x3f800000) /\
  trip1 (RNumberSequence [NSK 0 0x3dcccccf 0]) = Some (RNumberSequence [NSK 0 0x3dcccccd 0]).
Proof. split; vm_compute; reflexivity. Qed.
(** The direction of a ray is replaced by its origin (codec.go:1405-1413), brick
    colours come back as integers, tokens are cut off at 2^31-1. *)
Theorem C53_ray_refuted : trip1 (RRay (Vec3 0x3f800000 0 0) (Vec3 0 0x3f800000 0)) = Some (RRay (Vec3 0x3f800000 0 0) (Vec3 0x3f800000 0 0)).
Proof. vm_compute. reflexivity. Qed.
Theorem C53_brickcolor_refuted : trip1 (RBrickColor 194) = Some (RInt 194).
Proof. vm_compute. reflexivity. Qed.
Theorem C53_token_refuted : trip1 (RToken 0x80000001) = Some (RToken 0x7FFFFFFF).
Proof. vm_compute. reflexivity. Qed.
(** Optionals of anything but coordinate frames come back empty. *)
Theorem C53_optional_refuted : trip1 (ROptional TypeInt (Some (RInt 5))) = Some (ROptional TypeInt None).
Proof. vm_compute. reflexivity. Qed.
(** A weight of 2^15 or more takes the style along; a style without a name
    makes the whole font unreadable. *)
Theorem C53_font_refuted : trip1 (RFont (str "f") 0x8000 x01 []) = Some (RFont (str "f") 0x7FFF x00 []) /\
  trip1 (RFont (str "f") 400 x02 []) = Some (RFont [] 0 x00 []).
Proof. split; vm_compute; reflexivity. Qed.
(** Carriage returns become line feeds. *)
Theorem C53_cr_refuted : trip1 (RString (str "a" ++ [x0d; x0a] ++ str "b")) = Some (RString (str "a" ++ [x0a] ++ str "b")) /\
  trip1 (RProtectedString (str "a" ++ [x0d] ++ str "b")) = Some (RProtectedString (str "a" ++ [x0a] ++ str "b")).
Proof. split; vm_compute; reflexivity. Qed.
(** A protected string with the end of a CDATA section is not escaped
    (codec.go:1732-1738): its text becomes markup and adds instances. *)
Definition evil : bytes :=
  str "]]></ProtectedString></Properties></Item><Item class=""Injected""><Properties><ProtectedString name=""x""><![CDATA[".
Theorem C53_injection_refuted : exists out h1 r' h' ws', xml_encode 10 plain_env counter std (one (RProtectedString evil)) (Some one_root) = OK ([], out, h1) /\
  xml_decode plain_env true out XEOF = OK (r', h', ws') /\ r_instances r' = [1; 2]%nat /\ map i_class h' = [str "Part"; str "Injected"].
Proof. do 5 eexists. split; [vm_compute; reflexivity|]. split; [vm_compute; reflexivity|]. split; reflexivity. Qed.
