(** PropResave.v - saving a loaded file again. *)
From Coq Require Import Permutation Sorting.Sorted Relations.
From Verif Require Import Base RbxlValues RbxlArrays RbxlModel RbxlFile RbxlFileProofs RbxValues Tree RbxlCodec RbxlApi
  SpecValues SpecArrays SpecModel SpecFile SpecTree SpecCodec TreeProofs SortProofs PropCodecValues RbxlCodecEnc RbxlCodecCols
  RbxlCodecOut RbxlCodecShape RbxlCodecDec RbxlCodecRound RbxlCodecFile RbxlCodecImage RbxlResave RbxlResaveTree PropFile PropCodec PropCodecEx.

(** ** Specification *)
(** Loading a file and saving what was loaded, with the same options, but with
    any order of map iteration, writes b' without warnings. *)
Definition resaved (lz : lz4) (spare : nat -> nat) (q2m : quat) (hash : bytes -> bytes) (place u : bool) (b b' : bytes) : Prop :=
  exists xml noXML ev r h, orders_ok ev /\ (forall s, ev_hash ev s = hash s) /\
    Decoder_Decode lz spare q2m xml noXML b = OK (r, h, []) /\
    Encoder_Encode ev lz place u h (Some r) = OK ([], b').

(** ** Chunks that are written the same way *)
Definition same_chunk (c c' : chunk) : Prop :=
  ch_compressed c' = ch_compressed c /\ psig (ch_payload c') = psig (ch_payload c) /\
  payload_bytes (ch_payload c') = payload_bytes (ch_payload c) /\
  (forall content, ch_payload c = PEnd content <-> ch_payload c' = PEnd content).
Lemma same_chunk_refl c : same_chunk c c.
Proof. repeat split; auto. Qed.
Lemma same_enc lz u cs cs' : Forall2 same_chunk cs cs' -> forall i n, enc_chunks lz u false i n cs' = enc_chunks lz u false i n cs.
Proof.
  induction 1 as [|c c' cs cs' (H1 & H2 & H3 & H4) _ IH]; intros i n; [reflexivity|]. cbn [enc_chunks].
  assert (E1 : enc_chunk lz u c' = enc_chunk lz u c) by (unfold enc_chunk; now rewrite H1, H2, H3).
  assert (E2 : enc_warns u false i n c' = enc_warns u false i n c).
  { unfold enc_warns. rewrite H2. f_equal.
    destruct (ch_payload c) eqn:E.
    all: try (match type of E with _ = PEnd ?x => rewrite (proj1 (H4 x) eq_refl), H1; reflexivity end).
    all: destruct (ch_payload c') eqn:E'; try reflexivity; exfalso;
      match type of E' with _ = PEnd ?x => pose proof (proj2 (H4 x) eq_refl); discriminate end. }
  now rewrite E1, E2, IH.
Qed.
Lemma same_encode lz u f f' : Forall2 same_chunk (fm_chunks f) (fm_chunks f') -> fm_version f' = fm_version f ->
  fm_classCount f' = fm_classCount f -> fm_instCount f' = fm_instCount f -> fm_trailing f' = fm_trailing f ->
  encode lz u false f' = encode lz u false f.
Proof.
  intros H H1 H2 H3 H4. unfold encode. rewrite (same_enc _ _ _ _ H), <- (Forall2_len _ _ _ H), H1, H2, H3, H4. reflexivity.
Qed.
Lemma Forall2_refl {A} (R : A -> A -> Prop) l : (forall a, R a a) -> Forall2 R l l.
Proof. intros H. induction l; constructor; auto. Qed.
Lemma stored_same e : same_chunk (echunk e) (stored_echunk e).
Proof.
  repeat split; try discriminate. cbn [echunk stored_echunk ch_payload]. 
  exact (payload_stored (PProp (Z.of_nat (e_id e)) (e_name e) (Some (e_arr e)))).
Qed.
Lemma entries_same es : Forall2 same_chunk (map echunk es) (map stored_echunk es).
Proof. induction es; constructor; [apply stored_same|assumption]. Qed.

Lemma msets_keep (m : list (bytes * bytes)) : forall acc, NoDup (map fst (acc ++ m)) ->
  fold_left (fun m kv => mset m (fst kv) (snd kv)) m acc = acc ++ m.
Proof.
  induction m as [|[k v] m IH]; intros acc H; [now rewrite app_nil_r|]. cbn [fold_left fst snd].
  assert (E : mset acc k v = acc ++ [(k, v)]).
  { rewrite map_app in H. cbn in H. assert (Hk : ~ In k (map fst acc)).
    { apply NoDup_remove_2 in H. intros Hi. apply H. apply in_or_app. now left. }
    clear -Hk. induction acc as [|[k' v'] acc IH]; [reflexivity|]. cbn [mset app map fst] in *.
    destruct (beqb_spec k' k) as [->|Hne]; [exfalso; apply Hk; now left|]. rewrite IH; [reflexivity|]. intros Hi. apply Hk. now right. }
  rewrite E, IH; [now rewrite <- app_assoc|]. now rewrite <- app_assoc.
Qed.

(** ** C99: what was loaded is written as the original was *)
Definition encoding (lz : lz4) (u : bool) (cc ic : N) (cs : list chunk) : res (list warning * bytes) :=
  encode lz u false (FModel 0 cc ic cs [] []).
Theorem C99_chunks : forall ev lz spare q2m xml noXML place u h r ts ws b,
  orders_ok ev -> lossless lz ->
  forest_at h ts -> r_instances r = map rroot ts -> NoDup (map fst (r_metadata r)) ->
  storable h (fnodes ts) -> fits_file h (fnodes ts) r -> no_collision (ev_hash ev) h (fnodes ts) ->
  Encoder_Encode ev lz place u h (Some r) = OK (ws, b) -> len32 b ->
  exists r' h' m cc ic cs, Decoder_Decode lz spare q2m xml noXML b = OK (r', h', []) /\
    Permutation (r_metadata r) m /\ r_metadata r' = m /\
    (forall lz2 u2, Encoder_Encode ev lz2 place u2 h (Some r) = encoding lz2 u2 cc ic (meta_chunks m ++ cs)) /\
    (forall ev2, orders_ok ev2 -> (forall s, ev_hash ev2 s = ev_hash ev s) -> exists m2 f2, Permutation m m2 /\
      codec_encode ev2 place h' (Some r') = OK (f2, []) /\
      forall lz2 u2, Encoder_Encode ev2 lz2 place u2 h' (Some r') = encoding lz2 u2 cc ic (meta_chunks m2 ++ cs)).
Proof.
  intros ev lz spare q2m xml noXML place u h r ts ws b Hev Hlz Hf Hr Hm Hst Hff Hcol H Hb.
  destruct (forest_holds h ts Hf) as [xs Hx]. unfold Encoder_Encode in H.
  destruct (encode_general ev place h r ts xs (shared_strings h (fnodes ts)) Hev Hf Hr (st_count _ _ Hst) Hcol (st_strings _ _ Hst) Hx
    (shape_insts h ts xs Hst Hx) (shape_opts h ts xs Hst Hx)) as (m & sh & cl & entries & cws & Hpi & E).
  assert (Hp : pieces ev place h r ts xs m sh cl entries cws) by (destruct Hpi; constructor; assumption).
  rewrite E in H. cbn [obind] in H.
  pose proof (shape_wf ev place h r ts xs Hst Hff Hx m sh cl entries cws Hp) as Hwf.
  pose proof H as H0. unfold encode in H0. apply bind_OK in H0. destruct H0 as ([w0 b0] & E0 & H0). apply OK_pair in H0. destruct H0 as [<- _].
  pose proof (shape_no_warn ev place h r ts xs Hx m sh cl entries cws Hp lz u _ E0) as Hw. cbn [fst] in Hw. subst w0. clear E0.
  assert (Hc1 : f32 (N.of_nat (length cl))).
  { pose proof (classes_le xs cl (pc_classes _ _ _ _ _ _ _ _ _ _ _ Hp)). pose proof (holds_length _ _ _ Hx). pose proof (st_count _ _ Hst). unfold f32. lia. }
  assert (Hc2 : f32 (N.of_nat (length (fnodes ts)))) by (pose proof (st_count _ _ Hst); unfold f32; lia).
  destruct (C16_file_roundtrip lz spare noXML u (FModel 0 (N.of_nat (length cl)) (N.of_nat (length (fnodes ts))) (shape_chunks place ts xs m sh cl entries) [] []) _ _ Hlz eq_refl Hc1 Hc2 Hwf Hb H) as [st Ed].
  set (f := FModel 0 (N.of_nat (length cl)) (N.of_nat (length (fnodes ts))) (map (written u) (shape_chunks place ts xs m sh cl entries)) []
       (grow_all [] 0 (shape_chunks place ts xs m sh cl entries))) in *.
  assert (Hch : map ch_payload (fm_chunks f) = map ch_payload (map stored_chunk (shape_chunks place ts xs m sh cl entries))).
  { unfold f. cbn [fm_chunks]. rewrite !map_map. reflexivity. }
  destruct (decode_shape_full ev place h r ts xs Hf Hr Hst Hx m sh cl entries cws Hp q2m f eq_refl eq_refl Hch eq_refl Hm) as (lk & h' & mt & Er & Hi & _ & Hlk & Hex & Emt).
  pose proof (pi_meta _ _ _ _ _ _ _ _ _ _ _ Hpi) as Hpm.
  assert (Hmt : mt = m).
  { rewrite Emt. apply (msets_keep m []). cbn [app]. eapply Permutation_NoDup; [|exact Hm]. now apply Permutation_map. }
  clear Emt. subst mt.
  destruct (holds_exists h' (map (RbxlCodecImage.phi ts lk) (fnodes ts))) as [xs' Hx'].
  { intros p' Hp'. apply in_map_iff in Hp'. destruct Hp' as (p & <- & Hp'). destruct (forest_nodes h ts (proj1 Hf) p Hp') as [x Hxp].
    destruct (im_inst _ _ _ _ _ Hi) as (fs & _ & Hii). destruct (Hii p x Hp' Hxp) as (x' & Hx1 & _). eauto. }
  exists (Root (map (RbxlCodecImage.phi ts lk) (r_instances r)) m), h', m, (N.of_nat (length cl)), (N.of_nat (length (fnodes ts))),
    (sstr_chunks sh ++ map (ichunk place xs) (enum 0 cl) ++ map echunk entries ++ [Chunk true (prnt_payload ts); Chunk false (PEnd endContent)]).
  split; [|split; [exact Hpm|split; [reflexivity|split]]].
  - unfold Decoder_Decode. rewrite Ed. cbn [fm_classCount fm_instCount fm_chunks fm_trailing map app]. fold f. cbn [fm_trailing]. rewrite Er. reflexivity.
  - intros lz2 u2. unfold Encoder_Encode. rewrite E. cbn [obind]. reflexivity.
  - intros ev2 Hev2 Hhash.
    destruct (encode_general ev2 place h' (Root (map (RbxlCodecImage.phi ts lk) (r_instances r)) m) (map (rtmap (RbxlCodecImage.phi ts lk)) ts) xs'
      (shared_strings h (fnodes ts)) Hev2) as (m' & sh' & cl' & entries' & ws' & Hpi' & E').
    + exact (forest' place h ts Hf lk h' Hi).
    + exact (root' r ts Hr lk m).
    + rewrite fnodes_map, map_length. exact (st_count _ _ Hst).
    + intros s s' H1 H2. rewrite !Hhash. now apply Hcol.
    + exact (st_strings _ _ Hst).
    + rewrite fnodes_map. exact Hx'.
    + exact (insts' ev place h r ts xs Hf Hst Hx m sh cl entries cws Hp q2m f eq_refl eq_refl Hch eq_refl lk h' xs' Hi Hex Hx').
    + exact (opts' ev place h r ts xs Hf Hst Hx m sh cl entries cws Hp q2m f eq_refl eq_refl Hch eq_refl lk h' xs' Hi Hex Hx').
    + rewrite fnodes_map, map_length in E'.
      assert (Es : shape_chunks place (map (rtmap (RbxlCodecImage.phi ts lk)) ts) xs' m' sh' cl' entries' = 
        meta_chunks m' ++ sstr_chunks sh ++ map (ichunk place xs) (enum 0 cl) ++ map stored_echunk entries ++
          [Chunk true (prnt_payload ts); Chunk false (PEnd endContent)]) by (exact (same_chunks ev ev2 place h r ts xs Hhash Hf Hst Hcol Hx m sh cl entries cws Hpi Hp q2m f eq_refl eq_refl Hch eq_refl lk h' m xs' Hlk Hi Hex Hx' m' sh' cl' entries' ws' Hpi')).
      assert (Ec : cl' = cl) by (exact (same_classes ev ev2 place h r ts xs Hx m sh cl entries cws Hp q2m lk h' m xs' Hi Hex Hx' m' sh' cl' entries' ws' Hpi')).
      assert (Ew : ws' = []) by (exact (no_warns' ev ev2 place h r ts xs Hf Hst Hx m sh cl entries cws Hp q2m f eq_refl eq_refl Hch eq_refl lk h' m xs' Hi Hex Hx' m' sh' cl' entries' ws' Hpi')).
      rewrite Es, Ec, Ew in E'. exists m'. eexists. split; [|split; [exact E'|]].
      * exact (pi_meta _ _ _ _ _ _ _ _ _ _ _ Hpi').
      * intros lz2 u2. unfold Encoder_Encode. rewrite E'. cbn [obind]. unfold encoding. apply same_encode; try reflexivity.
        cbn [fm_chunks]. apply Forall2_app; [apply Forall2_refl, same_chunk_refl|]. apply Forall2_app; [apply Forall2_refl, same_chunk_refl|].
        apply Forall2_app; [apply Forall2_refl, same_chunk_refl|]. apply Forall2_app; [apply entries_same|apply Forall2_refl, same_chunk_refl].
Qed.

(** With at most one metadata entry, every encoding of what was loaded, with
    any options and any orders, is the encoding of the original. *)
Theorem C99_same_tree : forall ev lz spare q2m xml noXML place u h r ts ws b,
  orders_ok ev -> lossless lz ->
  forest_at h ts -> r_instances r = map rroot ts -> length (r_metadata r) <= 1 ->
  storable h (fnodes ts) -> fits_file h (fnodes ts) r -> no_collision (ev_hash ev) h (fnodes ts) ->
  Encoder_Encode ev lz place u h (Some r) = OK (ws, b) -> len32 b ->
  exists r' h', Decoder_Decode lz spare q2m xml noXML b = OK (r', h', []) /\
    forall ev2, orders_ok ev2 -> (forall s, ev_hash ev2 s = ev_hash ev s) ->
      (exists f2, codec_encode ev2 place h' (Some r') = OK (f2, [])) /\
      forall lz2 u2, Encoder_Encode ev2 lz2 place u2 h' (Some r') = Encoder_Encode ev lz2 place u2 h (Some r).
Proof.
  intros ev lz spare q2m xml noXML place u h r ts ws b Hev Hlz Hf Hr Hm Hst Hff Hcol H Hb.
  assert (Hn : NoDup (map fst (r_metadata r))).
  { destruct (r_metadata r) as [|kv [|]]; [constructor|constructor; [easy|constructor]|cbn in Hm; lia]. }
  destruct (C99_chunks ev lz spare q2m xml noXML place u h r ts ws b Hev Hlz Hf Hr Hn Hst Hff Hcol H Hb)
    as (r' & h' & m & cc & ic & cs & Ed & Hp & _ & He & Hn2).
  exists r', h'. split; [exact Ed|]. intros ev2 Hev2 Hhash. destruct (Hn2 ev2 Hev2 Hhash) as (m2 & f2 & Hp2 & Ef & He2).
  split; [eauto|]. intros lz2 u2. rewrite He, He2. replace m2 with m; [reflexivity|].
  assert (Hl : length m <= 1) by (rewrite <- (Permutation_length Hp); exact Hm).
  destruct m as [|a [|]]; [|now apply Permutation_length_1_inv in Hp2|cbn in Hl; lia]. symmetry. now apply Permutation_nil.
Qed.
(** Loading a file written by the encoder and saving it again writes the same file. *)
Theorem C99_resave : forall ev lz spare q2m place u h r ts ws b b',
  orders_ok ev -> lossless lz ->
  forest_at h ts -> r_instances r = map rroot ts -> length (r_metadata r) <= 1 ->
  storable h (fnodes ts) -> fits_file h (fnodes ts) r -> no_collision (ev_hash ev) h (fnodes ts) ->
  Encoder_Encode ev lz place u h (Some r) = OK (ws, b) -> len32 b ->
  resaved lz spare q2m (ev_hash ev) place u b b' <-> b' = b.
Proof.
  intros ev lz spare q2m place u h r ts ws b b' Hev Hlz Hf Hr Hm Hst Hff Hcol H Hb.
  assert (Hn : NoDup (map fst (r_metadata r))).
  { destruct (r_metadata r) as [|kv [|]]; [constructor|constructor; [easy|constructor]|cbn in Hm; lia]. }
  split.
  - intros (xml & noXML & ev2 & r2 & h2 & Hev2 & Hhash & Ed2 & E2).
    destruct (C99_same_tree ev lz spare q2m xml noXML place u h r ts ws b Hev Hlz Hf Hr Hm Hst Hff Hcol H Hb) as (r' & h' & Ed & Hs).
    assert (E : (r', h') = (r2, h2)) by congruence. injection E as -> ->. destruct (Hs ev2 Hev2 Hhash) as [_ He]. rewrite He, H in E2. congruence.
  - intros ->. exists (fun _ => Panic), false, ev.
    destruct (C99_same_tree ev lz spare q2m (fun _ => Panic) false place u h r ts ws b Hev Hlz Hf Hr Hm Hst Hff Hcol H Hb) as (r' & h' & Ed & Hs).
    destruct (C23_roundtrip ev lz spare q2m (fun _ => Panic) false place u h r ts ws b Hev Hlz Hf Hr Hn Hst Hff Hcol H Hb) as [-> _].
    exists r', h'. split; [exact Hev|]. split; [reflexivity|]. split; [exact Ed|]. destruct (Hs ev Hev (fun s => eq_refl)) as [_ He]. now rewrite He.
Qed.
(** Any number of times. *)
Theorem C99_cycles : forall ev lz spare q2m place u h r ts ws b b',
  orders_ok ev -> lossless lz ->
  forest_at h ts -> r_instances r = map rroot ts -> length (r_metadata r) <= 1 ->
  storable h (fnodes ts) -> fits_file h (fnodes ts) r -> no_collision (ev_hash ev) h (fnodes ts) ->
  Encoder_Encode ev lz place u h (Some r) = OK (ws, b) -> len32 b ->
  clos_refl_trans_1n bytes (resaved lz spare q2m (ev_hash ev) place u) b b' -> b' = b.
Proof.
  intros ev lz spare q2m place u h r ts ws b b' Hev Hlz Hf Hr Hm Hst Hff Hcol H Hb Hc.
  induction Hc as [b|b b1 b2 H1 Hc IH]; [reflexivity|].
  apply (C99_resave ev lz spare q2m place u h r ts ws b b1 Hev Hlz Hf Hr Hm Hst Hff Hcol H Hb) in H1. subst b1. now apply IH.
Qed.
(** With more metadata, only the metadata chunk can change: it has the same
    entries in some order. *)
Definition meta_bytes (lz : lz4) (u : bool) (m : list (bytes * bytes)) (b : bytes) : Prop :=
  match m with [] => b = [] | _ => enc_chunk lz u (Chunk true (PMeta m)) = OK b end.
Theorem C99_metadata : forall ev lz spare q2m xml noXML place u h r ts ws b,
  orders_ok ev -> lossless lz ->
  forest_at h ts -> r_instances r = map rroot ts -> NoDup (map fst (r_metadata r)) ->
  storable h (fnodes ts) -> fits_file h (fnodes ts) r -> no_collision (ev_hash ev) h (fnodes ts) ->
  Encoder_Encode ev lz place u h (Some r) = OK (ws, b) -> len32 b ->
  exists r' h', Decoder_Decode lz spare q2m xml noXML b = OK (r', h', []) /\
    forall ev2 ws2 b2, orders_ok ev2 -> (forall s, ev_hash ev2 s = ev_hash ev s) ->
      Encoder_Encode ev2 lz place u h' (Some r') = OK (ws2, b2) ->
      exists pre m m2 a a2 post, b = pre ++ a ++ post /\ b2 = pre ++ a2 ++ post /\ length pre = 32 /\
        meta_bytes lz u m a /\ meta_bytes lz u m2 a2 /\ Permutation (r_metadata r) m /\ Permutation (r_metadata r) m2.
Proof.
  intros ev lz spare q2m xml noXML place u h r ts ws b Hev Hlz Hf Hr Hn Hst Hff Hcol H Hb.
  destruct (C99_chunks ev lz spare q2m xml noXML place u h r ts ws b Hev Hlz Hf Hr Hn Hst Hff Hcol H Hb)
    as (r' & h' & m & cc & ic & cs & Ed & Hp & _ & He & Hn2).
  exists r', h'. split; [exact Ed|]. intros ev2 ws2 b2 Hev2 Hhash E2. destruct (Hn2 ev2 Hev2 Hhash) as (m2 & f2 & Hp2 & _ & He2).
  rewrite He in H. rewrite He2 in E2.
  assert (G : forall l ws b, encoding lz u cc ic (meta_chunks l ++ cs) = OK (ws, b) ->
    exists a ws0 post, meta_bytes lz u l a /\ enc_chunks lz u false (length (meta_chunks l)) (length (meta_chunks l ++ cs)) cs = OK (ws0, post) /\
      b = (robloxSig ++ binaryMarker ++ binaryHeader ++ le16 0 ++ le32 cc ++ le32 ic ++ le64 0) ++ a ++ post).
  { clear. intros l ws b H. unfold encoding, encode in H. apply bind_OK in H. destruct H as ([w0 b0] & E & H). apply OK_pair in H. destruct H as [_ H].
    cbn [fm_chunks] in E. unfold meta_chunks in *. destruct l as [|kv l].
    - cbn [app length] in *. exists [], w0, b0. split; [reflexivity|]. split; [exact E|]. rewrite H. cbn [fm_version fm_classCount fm_instCount fm_trailing].
      rewrite app_nil_r. rewrite <- !app_assoc. reflexivity.
    - cbn [app length] in *. cbn [enc_chunks] in E. apply bind_OK in E. destruct E as (a & Ea & E). apply bind_OK in E. destruct E as ([w1 p1] & Ep & E).
      apply OK_pair in E. destruct E as [_ E]. exists a, w1, p1. split; [exact Ea|]. split; [exact Ep|]. rewrite H, E. cbn [fm_version fm_classCount fm_instCount fm_trailing].
      rewrite app_nil_r. rewrite <- !app_assoc. reflexivity. }
  destruct (G _ _ _ H) as (a & w1 & post & Ha & Epost & Eb). destruct (G _ _ _ E2) as (a2 & w2 & post2 & Ha2 & Epost2 & Eb2).
  assert (Elen : length (meta_chunks m2) = length (meta_chunks m)).
  { pose proof (Permutation_length Hp2) as L. unfold meta_chunks. destruct m, m2; try discriminate L; reflexivity. }
  assert (Elen2 : length (meta_chunks m2 ++ cs) = length (meta_chunks m ++ cs)) by (rewrite !app_length; congruence).
  rewrite Elen, Elen2, Epost in Epost2. assert (post2 = post) by congruence. subst post2.
  exists (robloxSig ++ binaryMarker ++ binaryHeader ++ le16 0 ++ le32 cc ++ le32 ic ++ le64 0), m, m2, a, a2, post.
  split; [exact Eb|]. split; [exact Eb2|]. split; [reflexivity|]. split; [exact Ha|]. split; [exact Ha2|]. split; [exact Hp|]. etransitivity; [exact Hp|exact Hp2].
Qed.

(** ** The hypotheses are met *)
(** The tree has a column of several types, references in and out of the tree,
    shared strings that an instance lacks and an optional: loading what was
    saved and saving it again, with every map ranged over backwards. *)
Example C99_witness : exists b r' h' f w ws, Encoder_Encode ex_env toy_lz true false ex_heap (Some ex_root) = OK ([], b) /\ len32 b /\
  length (r_metadata ex_root) <= 1 /\
  codec_encode ex_env true ex_heap (Some ex_root) = OK (f, w :: ws) /\
  Decoder_Decode toy_lz (fun _ => 0) no_quat no_xml false b = OK (r', h', []) /\ h' <> ex_heap /\
  Encoder_Encode ex_rev toy_lz true false h' (Some r') = OK ([], b).
Proof.
  do 6 eexists. split; [vm_compute; reflexivity|]. split; [vm_compute; reflexivity|]. split; [cbn; lia|]. split; [vm_compute; reflexivity|].
  split; [vm_compute; reflexivity|]. split; [vm_compute; discriminate|]. vm_compute. reflexivity.
Qed.
(** With two entries of metadata the second file can differ, even when maps are
    ranged over in the order in which they were filled. *)
Theorem C99_metadata_refuted : exists b b' r' h', Encoder_Encode ex_env toy_lz true true [] (Some two_meta) = OK ([], b) /\
  Decoder_Decode toy_lz (fun _ => 0) no_quat no_xml false b = OK (r', h', []) /\
  Encoder_Encode ex_env toy_lz true true h' (Some r') = OK ([], b') /\ b' <> b.
Proof.
  do 4 eexists. split; [vm_compute; reflexivity|]. split; [vm_compute; reflexivity|]. split; [vm_compute; reflexivity|]. vm_compute. discriminate.
Qed.
