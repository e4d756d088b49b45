(** PropCodec.v - theorems about trees in files of the binary format. *)
From Coq Require Import Permutation Sorting.Sorted.
From Verif Require Import Base RbxlValues RbxlArrays RbxlModel RbxlFile RbxlFileProofs RbxValues Tree RbxlCodec RbxlApi
  SpecValues SpecArrays SpecWire SpecModel SpecFile SpecTree SpecCodec TreeProofs SortProofs PropFile PropCodecValues RbxlCodecEnc
  RbxlCodecCols RbxlCodecOut RbxlCodecShape RbxlCodecDec RbxlCodecRound RbxlCodecImage RbxlCodecFile.

Lemma forest_holds h ts : forest_at h ts -> exists xs, holds h (fnodes ts) xs.
Proof. intros H. apply holds_exists. exact (forest_nodes h ts (proj1 H)). Qed.

(** C23: a tree written to a file and read back is an image of itself: an
    isomorphic forest in the same order with the same roots, carried values,
    and the same metadata.  Nobody warns. *)
Theorem C23_roundtrip : forall ev lz spare q2m xml noXML place u h r ts ws b,
  orders_ok ev -> lossless lz ->
  forest_at h ts -> r_instances r = map rroot ts -> NoDup (map fst (r_metadata r)) ->
  storable h (fnodes ts) -> fits_file h (fnodes ts) r -> no_collision (ev_hash ev) h (fnodes ts) ->
  Encoder_Encode ev lz place u h (Some r) = OK (ws, b) -> len32 b ->
  ws = [] /\ exists phi h' mt,
    Decoder_Decode lz spare q2m xml noXML b = OK (Root (map phi (r_instances r)) mt, h', []) /\
    image place h (fnodes ts) phi h' /\ (forall k, mfind mt k = mfind (r_metadata r) k).
Proof.
  intros ev lz spare q2m xml noXML place u h r ts ws b Hev Hlz Hf Hr Hm Hst Hff Hcol H Hb.
  destruct (forest_holds h ts Hf) as [xs Hx]. unfold Encoder_Encode in H.
  destruct (encode_shape ev place h r ts xs Hev Hf Hr Hst Hcol Hx) as (m & sh & cl & entries & cws & Hp & E). rewrite E in H. cbn [obind] in H.
  pose proof (shape_wf ev place h r ts xs Hst Hff Hx m sh cl entries cws Hp) as Hwf.
  pose proof H as H0. unfold encode in H0. apply bind_OK in H0. destruct H0 as ([w0 b0] & E0 & H0). apply OK_pair in H0. destruct H0 as [<- _].
  pose proof (shape_no_warn ev place h r ts xs Hx m sh cl entries cws Hp lz u _ E0) as Hw. cbn [fst] in Hw. subst w0.
  split; [reflexivity|].
  assert (Hc1 : f32 (N.of_nat (length cl))).
  { pose proof (classes_le xs cl (pc_classes _ _ _ _ _ _ _ _ _ _ _ Hp)). pose proof (holds_length _ _ _ Hx). pose proof (st_count _ _ Hst). unfold f32. lia. }
  assert (Hc2 : f32 (N.of_nat (length (fnodes ts)))) by (pose proof (st_count _ _ Hst); unfold f32; lia).
  destruct (C16_file_roundtrip lz spare noXML u (FModel 0 (N.of_nat (length cl)) (N.of_nat (length (fnodes ts))) (shape_chunks place ts xs m sh cl entries) [] []) _ _ Hlz eq_refl Hc1 Hc2 Hwf Hb H) as [st Ed].
  unfold Decoder_Decode. rewrite Ed. cbn [fm_classCount fm_instCount fm_chunks fm_trailing map app].
  destruct (decode_shape ev place h r ts xs Hf Hr Hst Hx m sh cl entries cws Hp q2m
    (FModel 0 (N.of_nat (length cl)) (N.of_nat (length (fnodes ts))) (map (written u) (shape_chunks place ts xs m sh cl entries)) []
       (grow_all [] 0 (shape_chunks place ts xs m sh cl entries)))) as (phi & h' & mt & Er & Hi & Hmt); auto.
  { cbn [fm_chunks]. rewrite !map_map. reflexivity. }
  cbn [fm_trailing]. rewrite Er. exists phi, h', mt. auto.
Qed.
(** Without compression writing succeeds. *)
Theorem C23_encode_total : forall ev lz place h r ts,
  orders_ok ev -> forest_at h ts -> r_instances r = map rroot ts ->
  storable h (fnodes ts) -> fits_file h (fnodes ts) r -> no_collision (ev_hash ev) h (fnodes ts) ->
  exists b, Encoder_Encode ev lz place true h (Some r) = OK ([], b).
Proof.
  intros ev lz place h r ts Hev Hf Hr Hst Hff Hcol. destruct (forest_holds h ts Hf) as [xs Hx]. unfold Encoder_Encode.
  destruct (encode_shape ev place h r ts xs Hev Hf Hr Hst Hcol Hx) as (m & sh & cl & entries & cws & Hp & E). rewrite E. cbn [obind].
  pose proof (shape_wf ev place h r ts xs Hst Hff Hx m sh cl entries cws Hp) as Hwf.
  destruct (C16_encode_total lz (FModel 0 (N.of_nat (length cl)) (N.of_nat (length (fnodes ts))) (shape_chunks place ts xs m sh cl entries) [] []) Hwf)
    as (ws & b & Eb). rewrite Eb.
  pose proof Eb as H0. unfold encode in H0. apply bind_OK in H0. destruct H0 as ([w0 b0] & E0 & H0). apply OK_pair in H0. destruct H0 as [<- _].
  pose proof (shape_no_warn ev place h r ts xs Hx m sh cl entries cws Hp lz true _ E0) as Hw. cbn [fst] in Hw. subst w0. eauto.
Qed.
