(** PropConvertEx.v - a tree that both formats hold, and one that they do not. *)
From Coq Require Import Permutation.
From Verif Require Import Base RbxlValues RbxlArrays RbxlModel RbxlFile RbxValues Tree RbxlCodec RbxlApi
  SpecValues SpecArrays SpecModel SpecFile SpecTree SpecCodec TreeProofs PropTree PropFile PropCodec PropCodecEx
  XmlText XmlDoc XmlCodec SpecXml XmlFloats SpecXmlValues PropXmlValues PropXmlDecode PropXml PropXmlEx SpecConvert PropConvert.
Local Notation string := String.string.

(** ** A tree *)
Definition cx_workspace : inst := Inst (str "Workspace") [] true [(str "Camera", RReference 3); (str "Blob", RSharedString (str "abc"))] [2; 3].
Definition cx_part : inst := Inst (str "Part") (str "ref") false
  [(str "Size", RVector3 (Vec3 0x40000000 0x40800000 0x3f800000)); (str "Blob", RSharedString (str "abc")); (str "Target", RReference 1);
   (str "Pivot", ROptional TypeCFrame (Some cf)); (str "Mix", RInt 5%Z); (str "Id", RUniqueId 7%Z 8 9); (str "Frame", cf);
   (str "Source", RProtectedString (str "a<b")); (str "Range", RNumberRange 0 0x3f800000)] [4].
Definition cx_part2 : inst := Inst (str "Part") [] false
  [(str "Blob", RSharedString (str "xyz")); (str "Mix", RBool true); (str "Name", RBinaryString (str "p2"))] [].
Definition cx_folder : inst := Inst (str "Folder") [] false [(str "Name", RString (str "f"))] [].
Definition cx_heap : heap := [cx_workspace; cx_part; cx_part2; cx_folder; cx_folder].
Definition cx_ts : list rtree := [RNode 1 [RNode 2 [RNode 4 []]; RNode 3 []]; RNode 5 []].
Definition cx_root : root := Root [1; 5] [(str "k", str "v")].
Lemma cx_forest : forest_at cx_heap cx_ts.
Proof.
  split.
  - repeat (econstructor; try reflexivity).
  - cbn. repeat constructor; cbn; intuition discriminate.
Qed.
Lemma cx_inst x : inst_in cx_heap (fnodes cx_ts) x -> x = cx_workspace \/ x = cx_part \/ x = cx_part2 \/ x = cx_folder.
Proof. intros (p & Hp & Hx). cbn in Hp. destruct Hp as [<-|[<-|[<-|[<-|[<-|[]]]]]]; injection Hx as <-; tauto. Qed.
Lemma cx_storable : storable cx_heap (fnodes cx_ts).
Proof.
  constructor.
  - cbn. lia.
  - vm_compute. reflexivity.
  - intros x Hx. apply cx_inst in Hx. destruct Hx as [->|[->|[->| ->]]]; (split; [vm_compute; reflexivity|]);
      cbn; repeat constructor; cbn; intuition discriminate.
  - intros x name v Hx Hf. apply cx_inst in Hx. destruct Hx as [->|[->|[->| ->]]]; apply mfind_In in Hf; cbn [i_props cx_workspace cx_part cx_part2 cx_folder In] in Hf;
      repeat (destruct Hf as [Hf|Hf]; [injection Hf as <- <-|]); try contradiction;
      (split; [vm_compute; reflexivity|]); cbn [wf_rvalue cf]; wf.
  - intros x name t v Hx Hf. apply cx_inst in Hx. destruct Hx as [->|[->|[->| ->]]]; apply mfind_In in Hf; cbn [i_props cx_workspace cx_part cx_part2 cx_folder In] in Hf;
      repeat (destruct Hf as [Hf|Hf]; [try discriminate Hf|]); try contradiction; injection Hf as _ <- _; discriminate.
  - intros x y name t u v w Hx Hy Hc Hf Hg. apply cx_inst in Hx. apply cx_inst in Hy. apply mfind_In in Hf, Hg.
    destruct Hx as [->|[->|[->| ->]]]; cbn [i_props cx_workspace cx_part cx_part2 cx_folder In] in Hf;
      repeat (destruct Hf as [Hf|Hf]; [try discriminate Hf|]); try contradiction.
    destruct Hy as [->|[->|[->| ->]]]; cbn [i_props cx_workspace cx_part cx_part2 cx_folder In] in Hg;
      repeat (destruct Hg as [Hg|Hg]; [try discriminate Hg|]); try contradiction. congruence.
Qed.
Lemma cx_fits : fits_file cx_heap (fnodes cx_ts) cx_root.
Proof.
  constructor.
  - vm_compute. reflexivity.
  - split; [vm_compute; reflexivity|]. repeat constructor; vm_compute; reflexivity.
  - intros x name t v Hx Hf. apply cx_inst in Hx. destruct Hx as [->|[->|[->| ->]]]; apply mfind_In in Hf; cbn [i_props cx_workspace cx_part cx_part2 cx_folder In] in Hf;
      repeat (destruct Hf as [Hf|Hf]; [try discriminate Hf|]); try contradiction. injection Hf as _ <- _.
    intros Hin. vm_compute in Hin. intuition discriminate.
Qed.
Lemma cx_xml : xml_storable cx_heap (fnodes cx_ts).
Proof.
  constructor.
  - intros x Hx. apply cx_inst in Hx. destruct Hx as [->|[->|[->| ->]]]; (split; [vm_compute; reflexivity|]); cbn; repeat constructor; cbn; intuition discriminate.
  - intros x name v Hx Hf. apply cx_inst in Hx. destruct Hx as [->|[->|[->| ->]]]; apply mfind_In in Hf; cbn [i_props cx_workspace cx_part cx_part2 cx_folder In] in Hf;
      repeat (destruct Hf as [Hf|Hf]; [injection Hf as <- <-|]); try contradiction;
      (split; [vm_compute; reflexivity|]); (split; [|vm_compute; reflexivity]); cbn [wf_rvalue cf]; wf.
  - intros x name q Hx Hf Hq. apply cx_inst in Hx. destruct Hx as [->|[->|[->| ->]]]; apply mfind_In in Hf; cbn [i_props cx_workspace cx_part cx_part2 cx_folder In] in Hf;
      repeat (destruct Hf as [Hf|Hf]; [try discriminate Hf|]); try contradiction; injection Hf as _ <-; eexists; (split; [reflexivity|vm_compute; reflexivity]).
Qed.
Ltac numbers := repeat match goal with
  | |- _ /\ _ => split
  | |- vec3_all _ _ => unfold vec3_all; cbn [v3x v3y v3z]
  | |- Forall _ [] => apply Forall_nil
  | |- Forall _ _ => apply Forall_cons
  | |- number32 _ => left; vm_compute; discriminate
  | |- six _ _ => vm_compute; reflexivity
  | |- cr_leading _ => vm_compute; intuition discriminate
  | |- True => exact I
  end.
Lemma cx_both : both_formats (six (xe_fl plain_env)) (nine (xe_fl plain_env)) cx_heap (fnodes cx_ts) cx_root.
Proof.
  constructor.
  - intros x name v Hx Hf. apply cx_inst in Hx. destruct Hx as [->|[->|[->| ->]]]; apply mfind_In in Hf; cbn [i_props cx_workspace cx_part cx_part2 cx_folder In] in Hf;
      repeat (destruct Hf as [Hf|Hf]; [injection Hf as <- <-|]); try contradiction; cbn [kept cf]; numbers.
  - intros x name v Hx Hf. apply cx_inst in Hx. destruct Hx as [->|[->|[->| ->]]]; apply mfind_In in Hf; cbn [i_props cx_workspace cx_part cx_part2 cx_folder In] in Hf;
      repeat (destruct Hf as [Hf|Hf]; [injection Hf as <- <-|]); try contradiction; vm_compute; reflexivity.
  - intros x Hx. apply cx_inst in Hx. destruct Hx as [->|[->|[->| ->]]]; vm_compute; reflexivity.
  - intros k v Hk. cbn [r_metadata cx_root In] in Hk. destruct Hk as [Hk|[]]. injection Hk as <- <-. split; [vm_compute; reflexivity|vm_compute; intuition discriminate].
Qed.
Lemma cx_binary : plain_binary cx_heap (fnodes cx_ts).
Proof.
  intros x name s Hx Hf. apply cx_inst in Hx. destruct Hx as [->|[->|[->| ->]]]; apply mfind_In in Hf; cbn [i_props cx_workspace cx_part cx_part2 cx_folder In] in Hf;
    repeat (destruct Hf as [Hf|Hf]; [try discriminate Hf|]); try contradiction. injection Hf as _ <-. vm_compute. intuition discriminate.
Qed.
Definition load_binary (b : bytes) := Decoder_Decode toy_lz (fun _ => 0) no_quat no_xml false b.
(** Saved as one format and loaded, saved as the other and loaded. *)
Definition to_xml (h : heap) (r : root) : option (root * heap) :=
  match Encoder_Encode ex_env toy_lz true false h (Some r) with
  | OK (_, b) => match load_binary b with
    | OK (r1, h1, _) => match xml_encode 9 plain_env counter std h1 (Some r1) with
      | OK (_, out, _) => match xml_decode plain_env false out XEOF with OK (r', h', _) => Some (r', h') | _ => None end
      | _ => None end
    | _ => None end
  | _ => None
  end.
Definition to_binary (h : heap) (r : root) : option (root * heap) :=
  match xml_encode 9 plain_env counter std h (Some r) with
  | OK (_, out, _) => match xml_decode plain_env false out XEOF with
    | OK (r1, h1, _) => match Encoder_Encode ex_env toy_lz true false h1 (Some r1) with
      | OK (_, b) => match load_binary b with OK (r', h', _) => Some (r', h') | _ => None end
      | _ => None end
    | _ => None end
  | _ => None
  end.
(** The hypotheses of C101 hold of this tree. *)
Example C101_witness : orders_ok ex_env /\ lossless toy_lz /\ strconv_ok (xe_fl plain_env) /\ (forall k, length (counter k) = 16) /\
  never_repeats (length cx_heap) counter /\ never_repeats (length (fnodes cx_ts)) counter /\ forest_at cx_heap cx_ts /\ r_instances cx_root = map rroot cx_ts /\
  NoDup (map fst (r_metadata cx_root)) /\ storable cx_heap (fnodes cx_ts) /\ xml_storable cx_heap (fnodes cx_ts) /\ fits_file cx_heap (fnodes cx_ts) cx_root /\
  both_formats (six (xe_fl plain_env)) (nine (xe_fl plain_env)) cx_heap (fnodes cx_ts) cx_root /\ plain_binary cx_heap (fnodes cx_ts) /\
  no_collision (ev_hash ex_env) cx_heap (fnodes cx_ts) /\ no_collision (xe_hash plain_env) cx_heap (fnodes cx_ts) /\
  (exists ws b, Encoder_Encode ex_env toy_lz true false cx_heap (Some cx_root) = OK (ws, b) /\ len32 b) /\
  (exists ws out h1, xml_encode 9 plain_env counter std cx_heap (Some cx_root) = OK (ws, out, h1)) /\
  (exists r' h', to_xml cx_heap cx_root = Some (r', h') /\ r_instances r' = [1; 5] /\ part_of h' 2 "Target" = Some (RReference 1) /\
    part_of h' 2 "Source" = Some (RString (str "a<b")) /\ part_of h' 2 "Mix" = None /\ part_of h' 4 "Target" = Some (RReference 1) /\ part_of h' 4 "Name" = Some (RString (str "p2"))) /\
  (exists r' h', to_binary cx_heap cx_root = Some (r', h') /\ r_instances r' = [5; 2] /\ part_of h' 3 "Target" = Some (RReference 5) /\
    part_of h' 3 "Source" = Some (RString (str "a<b")) /\ part_of h' 3 "Mix" = None /\ part_of h' 4 "Target" = Some (RReference 5)).
Proof.
  split; [exact ex_orders|]. split; [exact toy_lossless|]. split; [exact plain_strconv_ok|]. split; [exact counter_16|].
  split; [eapply never_repeats_le; [|exact counter_never_repeats]; cbn; lia|]. split; [eapply never_repeats_le; [|exact counter_never_repeats]; cbn; lia|].
  split; [exact cx_forest|]. split; [reflexivity|]. split; [repeat constructor; cbn; intuition discriminate|]. split; [exact cx_storable|]. split; [exact cx_xml|].
  split; [exact cx_fits|]. split; [exact cx_both|]. split; [exact cx_binary|]. split; [intros s s' _ _ H; exact H|]. split.
  { intros s s' Hs Hs' E. vm_compute in Hs, Hs'. repeat (destruct Hs as [Hs|Hs]; [|]); repeat (destruct Hs' as [Hs'|Hs']; [|]); try contradiction; subst; try reflexivity; discriminate E. }
  split; [eexists _, _; split; [vm_compute; reflexivity|vm_compute; reflexivity]|]. split; [eexists _, _, _; vm_compute; reflexivity|].
  split; (eexists _, _; split; [vm_compute; reflexivity|]; vm_compute; repeat split).
Qed.

(** ** Where it fails *)
(** A carriage return in a binary string survives either format, and both if
    XML comes first; from the binary format to XML it becomes a line feed. *)
Definition bin_heap : heap := [Inst (str "A") [] false [(str "v", RBinaryString (str "a" ++ [x0d] ++ str "b"))] []].
Theorem C101_binary_refuted :
  (exists r' h', to_binary bin_heap (Root [1] []) = Some (r', h') /\ part_of h' 1 "v" = Some (RString (str "a" ++ [x0d] ++ str "b"))) /\
  (exists r' h', to_xml bin_heap (Root [1] []) = Some (r', h') /\ part_of h' 1 "v" = Some (RString (str "a" ++ [x0a] ++ str "b"))).
Proof. split; (eexists _, _; split; [vm_compute; reflexivity|vm_compute; reflexivity]). Qed.
