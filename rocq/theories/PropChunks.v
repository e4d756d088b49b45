(** PropChunks.v - C44, C45: the bytes of chunks and files are the documented
    layout. *)
From Verif Require Import Base RbxlValues RbxlArrays RbxlModel RbxlFile SpecValues SpecArrays SpecWire SpecModel
  SpecFile SpecChunks RbxlWordProofs RbxlValuesProofs RbxlArraysProofs RbxlModelProofs RbxlFileProofs PropWire PropFile.

Lemma OK_eq {E A} (x y : A) : (OK x : outcome E A) = OK y -> y = x.
Proof. now intros [= ->]. Qed.
Lemma id_block_ok ids r : Forall (int_range 32) ids -> write_ids ids = OK r -> id_block ids r.
Proof.
  intros Hf H. destruct ids as [|z l].
  { injection H as <-. split; [reflexivity|]. intros i j id _ Hj. destruct j; discriminate. }
  cbn [write_ids] in H. set (ids := z :: l) in *.
  assert (Ht : typeArrayToBytes (ARR tReference (map VReference ids)) = OK (tid_byte tReference :: r)).
  { cbn [typeArrayToBytes]. unfold refArrayToBytes in H. rewrite H. reflexivity. }
  assert (Hwf : wf_array (ARR tReference (map VReference ids))).
  { constructor; [discriminate|]. rewrite Forall_map. eapply Forall_impl; [|exact Hf]. intros a Ha. split; [reflexivity|exact Ha]. }
  destruct (C42_interleaved_layout _ _ _ Hwf ltac:(right; right; right; right; right; right; right; right; right; left; reflexivity)
    ltac:(discriminate) Ht) as (es & He1 & He2 & Hl & _ & Hc).
  rewrite map_length in *. change (Z.to_nat (tid_size tReference)) with 4 in *. cbn [length] in Hl.
  split; [lia|]. intros i j id Hi Hj.
  destruct He1 as [_ He1].
  assert (Hjl : j < length ids) by (apply nth_error_Some; congruence).
  destruct (He1 j (if (j =? 0)%nat then 0 else nth (j - 1) ids 0)%Z id) as (d & Hd & Hr & Hm).
  { rewrite nth_error_map, Hj. reflexivity. }
  { destruct (j =? 0)%nat eqn:E; [reflexivity|]. apply Nat.eqb_neq in E.
    rewrite nth_error_map, (nth_error_nth' ids 0%Z) by lia. reflexivity. }
  exists d. split; [exact Hr|]. split; [exact Hm|].
  specialize (Hc i j _ Hi Hd). change (nth (1 + (i * length ids + j)) (tid_byte tReference :: r) x00)
    with (nth (i * length ids + j) r x00) in Hc. rewrite Hc.
  cbn [layout emit flat_map emit1]. rewrite app_nil_r.
  destruct i as [|[|[|[|i]]]]; try reflexivity. lia.
Qed.

Lemma emit_cons f fs : emit (f :: fs) = emit1 f ++ emit fs.
Proof. reflexivity. Qed.
Lemma emit_text s : emit (text s) = writeString s.
Proof.
  unfold text, emit. cbn [flat_map]. change (emit1 (SpecWire.Raw s)) with s.
  rewrite <- emit_LE, app_nil_r. reflexivity.
Qed.
Lemma emit_flat {A} (f : A -> list field) (g : A -> bytes) l :
  (forall x, emit (f x) = g x) -> emit (flat_map f l) = flat_map g l.
Proof.
  intros H. induction l as [|x l IH]; [reflexivity|]. cbn [flat_map]. now rewrite emit_app, IH, H.
Qed.
Lemma twos_toN id : int_range 32 id -> twos 32 id = toN 32 id.
Proof.
  intros H. unfold twos, toN, int_range in *. destruct (Z.ltb_spec id 0).
  - f_equal. symmetry. rewrite <- (Z.mod_add id 1) by lia. apply Z.mod_small. lia.
  - f_equal. symmetry. apply Z.mod_small. lia.
Qed.

Theorem C44_payload_layout : forall g p b, wf_payload g p -> payload_bytes p = OK b ->
  exists fs, payload_layout p fs /\ b = emit fs.
Proof.
  intros g p b Hwf H.
  destruct p as [vs|v vs|id name ids svc gs|id name [a|]|v ch ps|c|s c|s n e c]; cbn [payload_bytes] in H.
  - apply OK_eq in H. eexists. split; [constructor|]. rewrite H, emit_cons. unfold count. rewrite <- emit_LE.
    f_equal. symmetry. apply emit_flat. intros [k v]. cbn [fst snd]. now rewrite emit_app, !emit_text.
  - apply OK_eq in H. eexists. split; [constructor|]. rewrite H, !emit_cons. unfold count. rewrite <- !emit_LE.
    do 2 f_equal. symmetry. apply emit_flat. intros [k w]. cbn [fst snd]. rewrite emit_cons, emit_text. reflexivity.
  - apply bind_OK in H. destruct H as (r & E & H). apply OK_eq in H. destruct Hwf as (W1 & W2 & [W3 W3'] & W4).
    eexists. split; [apply (lay_inst _ _ _ _ _ r), (id_block_ok _ _ W3 E)|]. rewrite H, emit_cons, !emit_app, emit_text.
    rewrite (twos_toN _ W1), <- emit_LE. do 2 f_equal. unfold count. rewrite !emit_cons, <- !emit_LE, <- !app_assoc.
    destruct svc; cbn [emit flat_map]; rewrite ?app_nil_r; reflexivity.
  - apply bind_OK in H. destruct H as (r & E & H). apply OK_eq in H. destruct Hwf as (W1 & W2 & W3).
    eexists. split; [apply lay_prop; exact E|]. rewrite H, emit_cons, emit_app, emit_text, (twos_toN _ W1), <- emit_LE.
    cbn [emit flat_map emit1]. now rewrite app_nil_r.
  - apply OK_eq in H. destruct Hwf as (W1 & W2 & W3). eexists. split; [apply lay_prop0|].
    rewrite H, emit_cons, emit_text, (twos_toN _ W1), <- emit_LE. reflexivity.
  - destruct Hwf as (W1 & [W2 _] & [W3 _] & W4). rewrite W4, Nat.eqb_refl in H. cbn [negb] in H.
    apply bind_OK in H. destruct H as (rc & E1 & H). apply bind_OK in H. destruct H as (rp & E2 & H). apply OK_eq in H.
    eexists. split; [apply (lay_prnt _ _ _ rc rp); apply id_block_ok; assumption|].
    rewrite H, <- W4, !emit_cons. unfold count. rewrite <- !emit_LE. cbn [emit flat_map emit1]. rewrite app_nil_r.
    cbn [le_bytes app]. reflexivity.
  - apply OK_eq in H. subst b. eexists. split; [constructor|]. cbn. now rewrite app_nil_r.
  - apply OK_eq in H. subst b. eexists. split; [constructor|]. cbn. now rewrite app_nil_r.
  - destruct Hwf.
Qed.
(** Signatures on the wire. *)
Theorem C44_signatures : forall p s, sig_text p = Some s -> emit [LE 4 (psig p)] = str s.
Proof. intros p s H. destruct p; try discriminate; injection H as <-; reflexivity. Qed.
Example C44_witness : wf_payload no_groups inst_example /\ exists b, payload_bytes inst_example = OK b.
Proof. split; [apply C14_witness|vm_compute; eauto]. Qed.

(** C45: a written file is the header, one frame per chunk holding the payload
    as it is or compressed, and the trailing bytes. *)
Definition chunk_frame (lz : lz4) (uncompressed : bool) (c : chunk) (f : frame) : Prop :=
  exists pb, payload_bytes (ch_payload c) = OK pb /\
    fr_sig f = psig (ch_payload c) /\ fr_dlen f = N.of_nat (length pb) /\ fr_reserved f = 0%N /\
    if (negb uncompressed && ch_compressed c)%bool
    then lz_enc lz pb = Some (fr_body f) /\ fr_clen f = N.of_nat (length (fr_body f))
    else fr_body f = pb /\ fr_clen f = 0%N.
Theorem C45_file_layout : forall lz u dcomp f ws b,
  encode lz u dcomp f = OK (ws, b) ->
  exists fs, Forall2 (chunk_frame lz u) (fm_chunks f) fs /\
    b = header (fm_version f) (fm_classCount f) (fm_instCount f) (repeat x00 8)
        ++ flat_map frame_bytes fs ++ fm_trailing f.
Proof.
  intros lz u dcomp f ws b H. unfold encode in H. apply bind_OK in H. destruct H as ([ws1 b1] & E & H).
  apply OK_pair in H. destruct H as [_ ->].
  enough (G : forall cs i n ws1 b1, enc_chunks lz u dcomp i n cs = OK (ws1, b1) ->
    exists fs, Forall2 (chunk_frame lz u) cs fs /\ b1 = flat_map frame_bytes fs).
  { destruct (G _ _ _ _ _ E) as (fs & G1 & ->). exists fs. split; [exact G1|].
    rewrite header_eq, <- !app_assoc. reflexivity. }
  clear. induction cs as [|c cs IH]; intros i n ws1 b1 H; cbn [enc_chunks] in H.
  { injection H as <- <-. exists []. split; [constructor|reflexivity]. }
  apply bind_OK in H. destruct H as (b0 & E0 & H). apply bind_OK in H. destruct H as ([ws2 b2] & E2 & H).
  apply OK_pair in H. destruct H as [_ ->]. destruct (IH _ _ _ _ E2) as (fs & F1 & ->).
  unfold enc_chunk in E0. apply bind_OK in E0. destruct E0 as (pb & Ep & E0). unfold raw_write in E0.
  cbn [raw_compressed raw_payload raw_sig] in E0.
  destruct (negb u && ch_compressed c)%bool eqn:Ec.
  - destruct (lz_enc lz pb) as [d|] eqn:Ed; [|discriminate]. apply OK_eq in E0.
    exists (Frame (psig (ch_payload c)) (N.of_nat (length d)) (N.of_nat (length pb)) 0 d :: fs). split.
    + constructor; [|exact F1]. exists pb. rewrite Ec. cbn. auto 10.
    + cbn [flat_map]. rewrite frame_eq, E0. reflexivity.
  - apply OK_eq in E0.
    exists (Frame (psig (ch_payload c)) 0 (N.of_nat (length pb)) 0 pb :: fs). split.
    + constructor; [|exact F1]. exists pb. rewrite Ec. cbn. auto 10.
    + cbn [flat_map]. rewrite frame_eq, E0. reflexivity.
Qed.
Example C45_witness : exists b, encode toy_lz false false file_example = OK ([WUnknownSig 2 1], b) /\ length b = 240.
Proof. exact (proj2 C16_witness). Qed.

Print Assumptions C44_payload_layout.
Print Assumptions C44_signatures.
Print Assumptions C45_file_layout.
