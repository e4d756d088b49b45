(** PropCodecEx.v - a concrete tree that meets the hypotheses of the theorems
    about encoding trees, and what comes out; claims that concrete trees
    refute. *)
From Coq Require Import Permutation Sorting.Sorted.
From Verif Require Import Base RbxlValues RbxlArrays RbxlModel RbxlFile RbxValues Tree RbxlCodec RbxlApi
  SpecValues SpecArrays SpecWire SpecModel SpecFile SpecTree SpecCodec SpecTables TreeProofs PropFile PropCodec PropTables PropOrder.

(** ** The tree *)
Definition cf : rvalue := RCFrame (Vec3 0x3f800000 0 0) [p1; p0; p0; p0; p1; p0; p0; p0; p1].
Definition ex_workspace : inst := Inst (str "Workspace") [] true [(str "Camera", RReference 3); (str "Blob", RSharedString (str "abc"))] [2; 3].
Definition ex_part : inst := Inst (str "Part") (str "ref") false
  [(str "Size", RVector3 (Vec3 0x40000000 0x40800000 0x3f800000)); (str "Blob", RSharedString (str "abc")); (str "Target", RReference 9);
   (str "Pivot", ROptional TypeCFrame (Some cf)); (str "Mix", RInt 5%Z); (str "Id", RUniqueId 7%Z 8 9); (str "Frame", cf)] [4].
Definition ex_part2 : inst := Inst (str "Part") [] false
  [(str "Blob", RSharedString (str "xyz")); (str "Mix", RBool true); (str "Name", RBinaryString (str "p2"))] [].
Definition ex_folder : inst := Inst (str "Folder") [] false [(str "Name", RString (str "f"))] [].
Definition ex_heap : heap := [ex_workspace; ex_part; ex_part2; ex_folder; ex_folder].
Definition ex_ts : list rtree := [RNode 1 [RNode 2 [RNode 4 []]; RNode 3 []]; RNode 5 []].
Definition ex_root : root := Root [1; 5] [(str "k", str "v")].
Definition ex_env : env := Env (fun s => s) (fun g => g) (fun n => n) (fun m => m) (fun m => m).
Definition ex_rev : env := Env (fun s => s) (@rev _) (@rev _) (@rev _) (fun m => m).

Lemma ex_orders : orders_ok ex_env.
Proof. repeat split; intros; reflexivity. Qed.
Lemma ex_orders_rev : orders_ok ex_rev.
Proof. repeat split; intros; cbn; try apply Permutation_rev; reflexivity. Qed.
Lemma ex_forest : forest_at ex_heap ex_ts.
Proof.
  split.
  - repeat (econstructor; try reflexivity).
  - cbn. repeat constructor; cbn; intuition discriminate.
Qed.
Lemma ex_inst x : inst_in ex_heap (fnodes ex_ts) x -> x = ex_workspace \/ x = ex_part \/ x = ex_part2 \/ x = ex_folder.
Proof. intros (p & Hp & Hx). cbn in Hp. destruct Hp as [<-|[<-|[<-|[<-|[<-|[]]]]]]; injection Hx as <-; tauto. Qed.
Ltac wf := repeat match goal with
  | |- _ /\ _ => split
  | |- wf_vec3 _ => unfold wf_vec3; cbn [v3x v3y v3z]
  | |- True => exact I
  | |- len32 _ => vm_compute; reflexivity
  | |- f32 _ => vm_compute; reflexivity
  | |- int_range _ _ => unfold int_range; cbn; lia
  | |- Forall f32 [] => apply Forall_nil
  | |- Forall f32 _ => apply Forall_cons
  | |- _ = _ => reflexivity
  end.
Lemma ex_storable : storable ex_heap (fnodes ex_ts).
Proof.
  constructor.
  - cbn. lia.
  - vm_compute. reflexivity.
  - intros x Hx. apply ex_inst in Hx. destruct Hx as [->|[->|[->| ->]]]; (split; [vm_compute; reflexivity|]);
      cbn; repeat constructor; cbn; intuition discriminate.
  - intros x name v Hx Hf. apply ex_inst in Hx. destruct Hx as [->|[->|[->| ->]]]; apply mfind_In in Hf; cbn [i_props ex_workspace ex_part ex_part2 ex_folder In] in Hf;
      repeat (destruct Hf as [Hf|Hf]; [injection Hf as <- <-|]); try contradiction;
      (split; [vm_compute; reflexivity|]); cbn [wf_rvalue cf]; wf.
  - intros x name t v Hx Hf. apply ex_inst in Hx. destruct Hx as [->|[->|[->| ->]]]; apply mfind_In in Hf; cbn [i_props ex_workspace ex_part ex_part2 ex_folder In] in Hf;
      repeat (destruct Hf as [Hf|Hf]; [try discriminate Hf|]); try contradiction. injection Hf as _ <- _. discriminate.
  - intros x y name t u v w Hx Hy Hc Hf Hg. apply ex_inst in Hx. apply ex_inst in Hy. apply mfind_In in Hf, Hg.
    destruct Hx as [->|[->|[->| ->]]]; cbn [i_props ex_workspace ex_part ex_part2 ex_folder In] in Hf;
      repeat (destruct Hf as [Hf|Hf]; [try discriminate Hf|]); try contradiction.
    destruct Hy as [->|[->|[->| ->]]]; cbn [i_props ex_workspace ex_part ex_part2 ex_folder In] in Hg;
      repeat (destruct Hg as [Hg|Hg]; [try discriminate Hg|]); try contradiction. congruence.
Qed.
Lemma ex_fits : fits_file ex_heap (fnodes ex_ts) ex_root.
Proof.
  constructor.
  - vm_compute. reflexivity.
  - split; [vm_compute; reflexivity|]. repeat constructor; vm_compute; reflexivity.
  - intros x name t v Hx Hf. apply ex_inst in Hx. destruct Hx as [->|[->|[->| ->]]]; apply mfind_In in Hf; cbn [i_props ex_workspace ex_part ex_part2 ex_folder In] in Hf;
      repeat (destruct Hf as [Hf|Hf]; [try discriminate Hf|]); try contradiction. injection Hf as _ <- _.
    intros Hin. vm_compute in Hin. intuition discriminate.
Qed.
Lemma ex_hash : no_collision (ev_hash ex_env) ex_heap (fnodes ex_ts).
Proof. intros s s' _ _ H. exact H. Qed.

Definition no_xml : bytes -> tree_res := fun _ => Panic.
Definition no_quat : quat := fun _ _ _ _ => [].
Definition roundtrip (place : bool) (h : heap) (r : root) : option (root * heap * list fwarn) :=
  match Encoder_Encode ex_env toy_lz place false h (Some r) with
  | OK (ws, b) => match Decoder_Decode toy_lz (fun _ => 0) no_quat no_xml false b with OK x => Some x | _ => None end
  | _ => None
  end.
(** The hypotheses of C21-C23, C26-C28, C39 hold of this tree. *)
Example C23_witness : exists ws b, Encoder_Encode ex_env toy_lz true false ex_heap (Some ex_root) = OK (ws, b) /\ len32 b.
Proof. eexists. eexists. split; [vm_compute; reflexivity|vm_compute; reflexivity]. Qed.

Definition part_of (h : heap) (k : ptr) (name : String.string) : option rvalue :=
  match hget h k with Some x => mfind (i_props x) (str name) | None => None end.
(** What comes back: the first part is instance 3 of the new heap, the second
    instance 4, the workspace instance 5. *)
Example C23_witness_decoded : exists mt h', roundtrip true ex_heap ex_root = Some (Root [5; 2] mt, h', []) /\
  part_of h' 3 "Size" = Some (RVector3 (Vec3 0x40000000 0x40800000 0x3f800000)) /\
  part_of h' 3 "Pivot" = Some (ROptional TypeCFrame (Some cf)) /\ part_of h' 3 "Target" = Some (RReference 0) /\
  part_of h' 4 "Blob" = Some (RSharedString (str "xyz")) /\ part_of h' 5 "Camera" = Some (RReference 4) /\
  part_of h' 3 "Mix" = None /\ part_of h' 4 "Size" = Some (RVector3 (Vec3 0 0 0)).
Proof. eexists. eexists. vm_compute. repeat split. Qed.

(** ** C22 *)
Example C22_witness : exists f ws, codec_encode ex_env true ex_heap (Some ex_root) = OK (f, ws) /\
  map gr_class (groups_in (fm_chunks f)) = [str "Folder"; str "Part"; str "Workspace"] /\
  map gr_ids (groups_in (fm_chunks f)) = [[2; 4]; [1; 3]; [0]]%Z /\
  links_in (fm_chunks f) = [[(2, 1); (1, 0); (3, 0); (0, -1); (4, -1)]]%Z.
Proof. eexists. eexists. split; [vm_compute; reflexivity|]. vm_compute. auto. Qed.
Example C22_order_witness : ev_classes ex_rev [(str "A", CGrp [] false []); (str "B", CGrp [] false [])]
  <> ev_classes ex_env [(str "A", CGrp [] false []); (str "B", CGrp [] false [])].
Proof. vm_compute. discriminate. Qed.

(** ** C27: the order of metadata *)
Definition two_meta : root := Root [] [(str "a", str "z"); (str "b", str "c")].
(** The META chunk is not sorted by key. *)
Theorem C27_sorted_refuted : exists ev h r f ws m, orders_ok ev /\
  codec_encode ev true h (Some r) = OK (f, ws) /\ metadata_in (fm_chunks f) = [m] /\ ~ StronglySorted before (map fst m).
Proof.
  exists ex_env, [], two_meta. eexists. eexists. eexists. split; [exact ex_orders|].
  split; [vm_compute; reflexivity|]. split; [vm_compute; reflexivity|].
  intros H. inversion H as [|? ? _ Ha]. apply Forall_inv in Ha. vm_compute in Ha. discriminate.
Qed.
(** The bytes depend on the order in which Go ranges over the metadata. *)
Theorem C27_deterministic_refuted : exists e1 e2 lz h r b1 b2, orders_ok e1 /\ orders_ok e2 /\ (forall s, ev_hash e1 s = ev_hash e2 s) /\
  Encoder_Encode e1 lz true true h (Some r) = OK ([], b1) /\ Encoder_Encode e2 lz true true h (Some r) = OK ([], b2) /\ b1 <> b2.
Proof.
  exists ex_env, ex_rev, toy_lz, [], two_meta. eexists. eexists. split; [exact ex_orders|]. split; [exact ex_orders_rev|]. split; [reflexivity|].
  split; [vm_compute; reflexivity|]. split; [vm_compute; reflexivity|]. vm_compute. discriminate.
Qed.

(** ** C28: properties that an instance lacks *)

(** The value given: a default, but the first instance for references, a
    shared string of the tree for shared strings, and a zero matrix for
    coordinate frames. *)
Definition missing_value (h : heap) (nodes : list ptr) (first : ptr) (w v' : rvalue) : Prop :=
  match w with
  | RReference _ => v' = RReference first
  | RSharedString _ => exists s, v' = RSharedString s /\ In s (shared_strings h nodes)
  | RCFrame _ _ => v' = RCFrame (Vec3 0 0 0) (repeat 0%N 9)
  | ROptional t _ => v' = ROptional (stored_type t) None
  | w => NewValue (stored_type (rtype w)) = Some v'
  end.
Theorem C28_missing : forall ev lz spare q2m xml noXML place u h r ts ws b,
  orders_ok ev -> lossless lz ->
  forest_at h ts -> r_instances r = map rroot ts -> NoDup (map fst (r_metadata r)) ->
  storable h (fnodes ts) -> fits_file h (fnodes ts) r -> no_collision (ev_hash ev) h (fnodes ts) ->
  Encoder_Encode ev lz place u h (Some r) = OK (ws, b) -> len32 b ->
  exists phi h' mt,
    Decoder_Decode lz spare q2m xml noXML b = OK (Root (map phi (r_instances r)) mt, h', []) /\
    forall p x name w, In p (fnodes ts) -> hget h p = Some x -> mfind (i_props x) name = None ->
      written_prop place h (fnodes ts) (i_class x) name w ->
      exists x' v', hget h' (phi p) = Some x' /\ mfind (i_props x') name = Some v' /\
        missing_value h (fnodes ts) (phi (hd 0 (fnodes ts))) w v'.
Proof.
  intros ev lz spare q2m xml noXML place u h r ts ws b Hev Hlz Hf Hr Hm Hst Hff Hcol H Hb.
  destruct (C23_roundtrip ev lz spare q2m xml noXML place u h r ts ws b Hev Hlz Hf Hr Hm Hst Hff Hcol H Hb)
    as (_ & phi & h' & mt & E & Hi & _).
  exists phi, h', mt. split; [exact E|]. intros p x name w Hp Hx Hn Hw.
  destruct (im_inst _ _ _ _ _ Hi) as (fs & Hfs & Him). destruct (Him p x Hp Hx) as (x' & Hx' & II).
  destruct (ii_fill _ _ _ _ _ _ _ II name w Hn Hw) as (v' & Hv' & Hfill). exists x', v'. split; [exact Hx'|]. split; [exact Hv'|].
  destruct Hfill as [t o|q|s|q rot|w d Hpl Hne Hd]; cbn [missing_value]; auto.
  - exists fs. split; [reflexivity|]. exact (Hfs _ _ _ Hw).
  - destruct w; try contradiction; auto.
Qed.
(** So a missing reference is not nil, a missing shared string not empty, and a
    missing coordinate frame has no rotation. *)
Theorem C28_default_refuted : exists h r h', (exists mt, roundtrip true h r = Some (Root [5; 2] mt, h', [])) /\
  part_of h 2 "Id" <> None /\ part_of h 3 "Target" = None /\ part_of h' 4 "Target" = Some (RReference 5) /\
  part_of h 3 "Frame" = None /\ part_of h' 4 "Frame" <> NewValue TypeCFrame.
Proof.
  exists ex_heap, ex_root. eexists. split; [eexists; vm_compute; reflexivity|]. vm_compute. repeat split; discriminate.
Qed.

(** ** C39: warnings are lost *)
Theorem C39_warning_lost : exists f w ws b h' mt,
  codec_encode ex_env true ex_heap (Some ex_root) = OK (f, w :: ws) /\
  w = CW 1 sigINST (CMismatch (Some tBool) (Some tInt) (str "Part") (str "Mix")) /\
  Encoder_Encode ex_env toy_lz true false ex_heap (Some ex_root) = OK ([], b) /\
  roundtrip true ex_heap ex_root = Some (Root [5; 2] mt, h', []) /\ part_of h' 3 "Mix" = None /\ part_of h' 4 "Mix" = None.
Proof.
  do 6 eexists. split; [vm_compute; reflexivity|]. split; [reflexivity|]. split; [vm_compute; reflexivity|].
  split; [vm_compute; reflexivity|]. split; reflexivity.
Qed.
(** They always are: whatever is written, Encode returns no warnings. *)
Theorem C39_encoder_silent : forall ev lz place u h r ts ws b,
  orders_ok ev -> lossless lz -> forest_at h ts -> r_instances r = map rroot ts -> NoDup (map fst (r_metadata r)) ->
  storable h (fnodes ts) -> fits_file h (fnodes ts) r -> no_collision (ev_hash ev) h (fnodes ts) ->
  Encoder_Encode ev lz place u h (Some r) = OK (ws, b) -> len32 b -> ws = [].
Proof. intros. eapply (C23_roundtrip ev lz (fun _ => 0) no_quat no_xml false place u h r ts ws b); eauto. Qed.

(** ** C40 *)
Example C40_witness : exists f ws, codec_encode ex_env false ex_heap (Some ex_root) = OK (f, ws) /\
  In (str "Size") (map (fun c => snd (fst c)) (columns_in (fm_chunks f))) /\
  ~ In (str "Id") (map (fun c => snd (fst c)) (columns_in (fm_chunks f))).
Proof.
  eexists. eexists. split; [vm_compute; reflexivity|]. split; [vm_compute; tauto|].
  vm_compute. intuition discriminate.
Qed.
(** In places unique ids survive. *)
Theorem C40_place : forall ev lz spare q2m xml noXML u h r ts ws b,
  orders_ok ev -> lossless lz ->
  forest_at h ts -> r_instances r = map rroot ts -> NoDup (map fst (r_metadata r)) ->
  storable h (fnodes ts) -> fits_file h (fnodes ts) r -> no_collision (ev_hash ev) h (fnodes ts) ->
  Encoder_Encode ev lz true u h (Some r) = OK (ws, b) -> len32 b ->
  exists phi h' mt,
    Decoder_Decode lz spare q2m xml noXML b = OK (Root (map phi (r_instances r)) mt, h', []) /\
    forall p x name a t i, In p (fnodes ts) -> hget h p = Some x -> mfind (i_props x) name = Some (RUniqueId a t i) ->
      alike h (fnodes ts) (i_class x) name ->
      exists x', hget h' (phi p) = Some x' /\ mfind (i_props x') name = Some (RUniqueId a t i).
Proof.
  intros ev lz spare q2m xml noXML u h r ts ws b Hev Hlz Hf Hr Hm Hst Hff Hcol H Hb.
  destruct (C23_roundtrip ev lz spare q2m xml noXML true u h r ts ws b Hev Hlz Hf Hr Hm Hst Hff Hcol H Hb)
    as (_ & phi & h' & mt & E & Hi & _).
  exists phi, h', mt. split; [exact E|]. intros p x name a t i Hp Hx Hn Ha.
  destruct (im_inst _ _ _ _ _ Hi) as (fs & _ & Him). destruct (Him p x Hp Hx) as (x' & Hx' & II).
  destruct (ii_has _ _ _ _ _ _ _ II name _ Hn) as (v' & Hv' & Hc).
  { split; [|split; [exact Ha|now left]]. exists x. split; [exists p; auto|]. auto. }
  exists x'. split; [exact Hx'|]. rewrite Hv'. f_equal. inversion Hc as [v w Hpl Hk| | | | |]; subst. unfold keeps_stored in Hk. cbn in Hk.
  inversion Hk; subst. reflexivity.
Qed.
(** In models an optional unique id is written all the same. *)
Theorem C40_optional_refuted : exists h r f ws id name ps vs,
  codec_encode ex_env false h (Some r) = OK (f, ws) /\
  In (id, name, Some (AOPT (Some (ARR tUniqueId vs)) ps)) (columns_in (fm_chunks f)) /\ In true ps.
Proof.
  exists [Inst (str "A") [] false [(str "U", ROptional TypeUniqueId (Some (RUniqueId 1%Z 2 3)))] []], (Root [1] []).
  do 6 eexists. split; [vm_compute; reflexivity|]. split; [vm_compute; left; reflexivity|]. now left.
Qed.

(** ** C47: trees that make Encode panic or never return *)
Definition one (ps : list (bytes * rvalue)) (cs : list ptr) : inst := Inst (str "A") [] false ps cs.
(** The zero ValueOptional has no type. *)
Theorem C47_untyped_optional_panics : codec_encode ex_env true [one [(str "P", ROptional 0%N None)] []] (Some (Root [1] [])) = Panic.
Proof. vm_compute. reflexivity. Qed.
(** Optionals of two types in one property. *)
Theorem C47_two_optionals_panic :
  codec_encode ex_env true [one [(str "P", ROptional TypeInt None)] []; one [(str "P", ROptional TypeBool None)] []] (Some (Root [1; 2] [])) = Panic.
Proof. vm_compute. reflexivity. Qed.
(** An optional of an optional. *)
Theorem C47_nested_optional_panics :
  codec_encode ex_env true [one [(str "P", ROptional TypeOptional (Some (ROptional TypeInt None)))] []] (Some (Root [1] [])) = Panic.
Proof. vm_compute. reflexivity. Qed.
(** An instance with two parents. *)
Theorem C47_two_parents_panic :
  codec_encode ex_env true [one [] [3]; one [] [3]; one [] []] (Some (Root [1; 2] [])) = Panic.
Proof. vm_compute. reflexivity. Qed.
(** An instance below itself. *)
Theorem C47_cycle_hangs :
  codec_encode ex_env true [one [] [2]; one [] [1]] (Some (Root [1] [])) = Hang.
Proof. vm_compute. reflexivity. Qed.
(** A nil child. *)
Theorem C47_nil_child_panics : codec_encode ex_env true [one [] [0]] (Some (Root [1] [])) = Panic.
Proof. vm_compute. reflexivity. Qed.
(** Trees without these, of any size, are encoded. *)
Theorem C47_encode_total : forall ev place h r ts,
  orders_ok ev -> forest_at h ts -> r_instances r = map rroot ts ->
  storable h (fnodes ts) -> no_collision (ev_hash ev) h (fnodes ts) ->
  exists f ws, codec_encode ev place h (Some r) = OK (f, ws).
Proof.
  intros ev place h r ts Hev Hf Hr Hst Hcol. destruct (forest_holds h ts Hf) as [xs Hx].
  destruct (RbxlCodecShape.encode_shape ev place h r ts xs Hev Hf Hr Hst Hcol Hx) as (m & sh & cl & es & ws & _ & E). eauto.
Qed.

Print Assumptions C23_roundtrip.
Print Assumptions C23_encode_total.
Print Assumptions C21_numbering.
Print Assumptions C22_groups.
Print Assumptions C22_order_independent.
Print Assumptions C22_bytes_deterministic.
Print Assumptions C26_shared_strings.
Print Assumptions C26_index_decoded.
Print Assumptions C27_metadata_written.
Print Assumptions C27_sorted_refuted.
Print Assumptions C27_deterministic_refuted.
Print Assumptions C28_missing.
Print Assumptions C28_default_refuted.
Print Assumptions C39_codec_warnings.
Print Assumptions C39_warning_lost.
Print Assumptions C39_encoder_silent.
Print Assumptions C40_no_unique_ids.
Print Assumptions C40_place.
Print Assumptions C40_optional_refuted.
Print Assumptions C47_encode_total.
