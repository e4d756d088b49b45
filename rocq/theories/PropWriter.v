(** PropWriter.v - C77: the binary encoder and Decompress with writers that fail. *)
From Verif Require Import Base RbxlValues RbxlArrays RbxlModel RbxlFile RbxlFileProofs RbxValues Tree RbxlCodec RbxlApi
  RbxlWriter SpecWriter RbxlWriterProofs.
From Verif Require PropFile PropCodecEx.
From Coq Require Import Lia.

Section C77.
Context {E : Type}.
Variable no_errors : E -> bool.
Notation encodeTo := (encodeTo no_errors).

(** A writer that takes everything gets exactly the file, with its warnings and
    no error. *)
Theorem C77_complete : forall lz u d f ws b, encode lz u d f = OK (ws, b) ->
  exists calls, encodeTo accept_all lz u d f = Ran calls (OK (ws, None)) /\ delivered calls = b.
Proof. intros lz u d f ws b H. pose proof (encode_acc no_errors lz u d f) as A. rewrite H in A. exact A. Qed.

(** If a chunk cannot be encoded, such a writer gets the header, the chunks
    before it in full, and of the bad chunk at most its signature (when it is
    the compression that failed); the error has the cause.  Its Offset counts what
    was delivered before the bad chunk, the payloads of the chunks before it
    again, and what there is of the bad chunk. *)
Lemma enc_warns_chunks lz u d cs : forall i n ws b, enc_chunks lz u d i n cs = OK (ws, b) ->
  forall i' n', exists ws', enc_chunks lz u d i' n' cs = OK (ws', b).
Proof.
  induction cs as [|c cs IH]; intros i n ws b H i' n'; cbn [enc_chunks] in *.
  - inversion H; subst. eauto.
  - destruct (enc_chunk lz u c) as [b1|e| |]; try discriminate. cbn [obind] in *.
    destruct (enc_chunks lz u d (S i) n cs) as [[w1 r1]|e| |] eqn:Er; try discriminate. cbn [obind] in H. inversion H; subst.
    destruct (IH _ _ _ _ Er (S i') n') as (w2 & ->). cbn. eauto.
Qed.
Theorem C77_bad_chunk : forall lz u d f e, encode lz u d f = Err e ->
  exists good c rest calls ws off, fm_chunks f = good ++ c :: rest /\
    encodeTo accept_all lz u d f = Ran calls (OK (ws, Some (WData (DataError off (CModel e))))) /\
    enc_chunk lz u c = Err e /\
    exists ws' b, encode lz u d (with_chunks f good) = OK (ws', b) /\
      (delivered calls = b \/ delivered calls = b ++ le32 (psig (ch_payload c))) /\
      off = (length b + total plen good + begun c)%nat.
Proof.
  intros lz u d f e H. pose proof (encode_acc no_errors lz u d f) as A. rewrite H in A.
  destruct A as (good & c & rest & ws & b & A1 & A2 & A3 & calls & ws' & off & A4 & A5 & A6).
  exists good, c, rest, calls, ws', off. repeat split; auto.
  destruct (enc_warns_chunks _ _ _ _ _ _ _ _ A2 0 (length good)) as (w2 & Hw2).
  exists w2, (head_bytes f ++ b). split.
  - unfold encode. cbn [with_chunks fm_chunks fm_version fm_classCount fm_instCount fm_trailing]. rewrite Hw2. cbn [obind].
    rewrite app_nil_r. unfold head_bytes. rewrite <- !app_assoc. reflexivity.
  - split; [|rewrite A6, app_length; lia].
    rewrite A5. unfold sigpart. destruct (payload_bytes (ch_payload c)); [right|left..]; rewrite ?app_nil_r, ?app_assoc; reflexivity.
Qed.

(** Every writer.  Either no Write failed, and everything is as with a writer
    that takes everything; or the last call is the one that failed, what was
    delivered is a beginning of what should have been, and the error of the
    writer is the cause of the error returned, with the warnings so far. *)
Theorem C77_every_writer : forall w lz u d f, contract w ->
  let r := encodeTo w lz u d f in let r' := encodeTo accept_all lz u d f in
  (Forall whole (r_calls r) /\ delivered (r_calls r) = delivered (r_calls r') /\ r_result r = r_result r') \/
  (exists before last e more ws, r_calls r = before ++ [last] /\ Forall whole before /\ c_err last = Some e /\
     w before (c_arg last) = (c_n last, Some e) /\
     delivered (r_calls r') = delivered (r_calls r) ++ more /\
     (forall ws' x, r_result r' = OK (ws', x) -> exists y, ws' = ws ++ y) /\
     (no_errors e = false -> exists off, r_result r = OK (ws, Some (WData (DataError off (CWriter e)))))).
Proof.
  intros w lz u d f Hw. rewrite !encodeTo_runs. cbv zeta.
  pose proof (runs_split w (groups_of lz u d f) Hw (ok_groups lz u d f) [] bw0 bw0 agree0) as R. unfold whole_runs in R. cbv zeta in R.
  destruct (runs w (groups_of lz u d f) [] bw0) as [[s st] ws], (runs accept_all (groups_of lz u d f) [] bw0) as [[s' st'] ws'].
  cbn [fst snd] in R.
  assert (C : forall s st ws, r_calls (finish no_errors (s, st, ws)) = bw_calls s) by (intros ? st0 ?; destruct st0; reflexivity).
  rewrite !C. destruct R as [(-> & -> & R1 & ->)|[(-> & R1 & R2 & x & ->)|(-> & R1 & R2 & -> & R3)]].
  - left. split; [apply R1|]. split.
    + rewrite !delivered_whole by apply R1. apply agree_asked, R1.
    + cbn. unfold encodeError. destruct R1 as (-> & -> & _). reflexivity.
  - right. destruct R1 as (before & last & e & B1 & B2 & B3 & B3' & B4 & B5 & more & B6).
    exists before, last, e, (skipn (c_n last) (c_arg last) ++ more), ws. repeat split; auto.
    + rewrite (delivered_whole (bw_calls s')) by assumption. rewrite B6, B1, delivered_app, (delivered_whole before B2).
      cbn [delivered flat_map]. rewrite app_nil_r, <- !app_assoc. f_equal. rewrite (app_assoc (firstn _ _)), firstn_skipn. reflexivity.
    + intros ws' y Hr. destruct st'; inversion Hr; subst; eauto.
    + intros Hn. exists (bw_n s). cbn. unfold encodeError. rewrite B4, Hn. reflexivity.
  - left. destruct R2 as (Q1 & Q2 & Q3 & Q4 & Q5 & Q6). split; [exact Q4|]. split.
    + rewrite !delivered_whole by assumption.
      assert (G : forall l : list (call E), asked l = concat (map (@c_arg E) l)).
      { induction l as [|c l IH]; [reflexivity|]. cbn. rewrite <- IH. reflexivity. }
      rewrite !G, Q3. reflexivity.
    + destruct st'; cbn; unfold encodeError; rewrite ?Q1, ?Q2; reflexivity.
Qed.

(** So no error means that the file is complete. *)
Theorem C77_no_error : forall w lz u d f calls ws, contract w -> (forall e, no_errors e = false) ->
  encodeTo w lz u d f = Ran calls (OK (ws, None)) -> encode lz u d f = OK (ws, delivered calls).
Proof.
  intros w lz u d f calls ws Hw Hn H. destruct (C77_every_writer w lz u d f Hw) as [(_ & A2 & A3)|(b & la & e & m & ws1 & A1 & A2 & A3 & A3' & A4 & A5 & A6)];
  rewrite H in *; cbn [r_calls r_result] in *.
  - pose proof (encode_acc no_errors lz u d f) as B. destruct (encode lz u d f) as [[ws' b]|e| |].
    + destruct B as (c & Hc & Hd). rewrite Hc in *. cbn [r_calls r_result] in *. inversion A3; subst. rewrite A2. reflexivity.
    + destruct B as (good & c & rest & ws' & b & _ & _ & _ & cs & ws2 & off & Hc & _). rewrite Hc in A3. discriminate.
    + rewrite B in A3. discriminate.
    + rewrite B in A3. discriminate.
  - destruct (A6 (Hn e)) as (off & K). discriminate.
Qed.

(** The exception: errors.Errors with no elements is an error, but encodeError
    takes it for none.  Whatever the model, nothing is delivered, and no error
    is returned. *)
Theorem C77_no_errors_refuted : forall lz u d f e, no_errors e = true ->
  exists p, encodeTo (fun _ _ => (0, Some e)) lz u d f = Ran [Call p 0 (Some e)] (OK ([], None)).
Proof. intros lz u d f e H. eexists. unfold RbxlWriter.encodeTo, seq, wBytes. cbn. rewrite H. reflexivity. Qed.

(** The Offset of the error is not the number of bytes delivered: the lengths
    of the payloads of the chunks begun are counted again.  Exactly: for some
    number k of chunks begun - the failing Write is after the first k-1 chunks
    and, unless it is the last Write, not after the k-th. *)
Theorem C77_offset : forall w lz u d f ws b ws' off c, contract w ->
  encode lz u d f = OK (ws, b) ->
  r_result (encodeTo w lz u d f) = OK (ws', Some (WData (DataError off c))) ->
  let got := length (delivered (r_calls (encodeTo w lz u d f))) in
  exists k, (k <= length (fm_chunks f))%nat /\
    off = (got + total plen (firstn k (fm_chunks f)))%nat /\
    ((0 < k)%nat -> (32 + total (esize lz u) (firstn (k - 1) (fm_chunks f)) <= got)%nat) /\
    ((k < length (fm_chunks f))%nat -> (got <= 32 + total (esize lz u) (firstn k (fm_chunks f)))%nat).
Proof. exact (offset_exact no_errors). Qed.

(** Encode: a nil writer is an error, and a tree the codec refuses is refused
    before anything is written. *)
Theorem C77_encode : forall w ev lz place u h r calls ws, contract w -> (forall e, no_errors e = false) ->
  Encode_to no_errors (Some w) ev lz place u h r = Ran calls (OK (ws, None)) ->
  Encoder_Encode ev lz place u h r = OK (ws, delivered calls).
Proof.
  intros w ev lz place u h r calls ws Hw Hn. unfold Encode_to, Encoder_Encode. destruct (codec_encode ev place h r) as [[f cw]|e| |]; try discriminate.
  cbn [obind]. apply C77_no_error; assumption.
Qed.
Theorem C77_encode_complete : forall ev lz place u h r ws b, Encoder_Encode ev lz place u h r = OK (ws, b) ->
  exists calls, Encode_to no_errors (Some accept_all) ev lz place u h r = Ran calls (OK (ws, None)) /\ delivered calls = b.
Proof.
  intros ev lz place u h r ws b. unfold Encode_to, Encoder_Encode. destruct (codec_encode ev place h r) as [[f cw]|e| |]; try discriminate.
  cbn [obind]. apply C77_complete.
Qed.
Theorem C77_encode_refused : forall w ev lz place u h r e, codec_encode ev place h r = Err e ->
  Encode_to no_errors (Some w) ev lz place u h r = Ran [] (OK ([], Some (WCodecErr e))).
Proof. intros w ev lz place u h r e H. unfold Encode_to. rewrite H. reflexivity. Qed.
Theorem C77_encode_nil : forall ev lz place u h r,
  Encode_to no_errors None ev lz place u h r = Ran [] (OK ([], Some WNilWriter)).
Proof. reflexivity. Qed.

(** Decompress, the same; but a nil writer is not an error: it panics as soon
    as the file is valid. *)
Theorem C77_decompress : forall w lz noXML b calls ws, contract w -> (forall e, no_errors e = false) ->
  Decompress_to no_errors (Some w) lz noXML (Some b) = Ran calls (OK (ws, None)) ->
  decompress lz noXML b = OK (ws, delivered calls).
Proof.
  intros w lz noXML b calls ws Hw Hn. unfold Decompress_to, decompress.
  destruct (decode_dcomp lz noXML b) as [[[[x|f] ws0] st]|[[e ws0] st]| |]; try discriminate.
  destruct (encodeTo w lz true true f) as [cs res] eqn:He. cbn [r_calls r_result]. intros H.
  destruct res as [[ws2 e2]|[]| |]; cbn [obind] in H; inversion H; subst.
  rewrite (C77_no_error w lz true true f calls ws2 Hw Hn He). reflexivity.
Qed.
Theorem C77_decompress_complete : forall lz noXML b ws out, decompress lz noXML b = OK (ws, out) ->
  exists calls, Decompress_to no_errors (Some accept_all) lz noXML (Some b) = Ran calls (OK (ws, None)) /\ delivered calls = out.
Proof.
  intros lz noXML b ws out. unfold Decompress_to, decompress.
  destruct (decode_dcomp lz noXML b) as [[[[x|f] ws0] st]|[[e ws0] st]| |]; try discriminate.
  destruct (encode lz true true f) as [[ws2 b2]|e| |] eqn:He; try discriminate. intros H. inversion H; subst.
  destruct (C77_complete lz true true f ws2 out He) as (calls & Hc & Hd). exists calls. rewrite Hc. cbn. auto.
Qed.
Theorem C77_decompress_nil_refuted : forall lz noXML b ws out, decompress lz noXML b = OK (ws, out) ->
  r_result (Decompress_to no_errors None lz noXML (Some b)) = Panic.
Proof.
  intros lz noXML b ws out. unfold Decompress_to, decompress.
  destruct (decode_dcomp lz noXML b) as [[[[x|f] ws0] st]|[[e ws0] st]| |]; try discriminate. reflexivity.
Qed.
Theorem C77_decompress_reader : forall w lz noXML,
  Decompress_to no_errors w lz noXML None = Ran [] (OK ([], Some WNilReader)).
Proof. reflexivity. Qed.
End C77.

(** A disk with room for [n] bytes. *)
Definition full_disk (n : nat) : writer unit := fun past p =>
  let room := n - length (delivered past) in
  if length p <=? room then (length p, None) else (room, Some tt).
Lemma full_disk_contract n : contract (full_disk n).
Proof.
  intros past p. unfold full_disk. destruct (length p <=? n - length (delivered past)) eqn:E; cbn.
  - split; [lia|auto].
  - apply Nat.leb_gt in E. split; [lia|discriminate].
Qed.
Definition never (_ : unit) := false.
Definition small_file : fmodel :=
  FModel 0 0 0 [Chunk false (PUnknown 7 (str "hello")); Chunk false (PEnd endContent)] (str "tail") [].
(** Room for 50 bytes: the header and the first 18 of the first chunk; the
    Offset says 55.  Room for 79: the trailing bytes do not fit, Offset 93. *)
Example C77_full_disk :
  (forall n, contract (full_disk n)) /\
  encode PropFile.toy_lz false false small_file =
    OK ([WUnknownSig 0 7], delivered (r_calls (encodeTo never (full_disk 1000) PropFile.toy_lz false false small_file))) /\
  r_result (encodeTo never (full_disk 50) PropFile.toy_lz false false small_file) =
    OK ([WUnknownSig 0 7], Some (WData (DataError 55 (CWriter tt)))) /\
  length (delivered (r_calls (encodeTo never (full_disk 50) PropFile.toy_lz false false small_file))) = 50 /\
  r_result (encodeTo never (full_disk 79) PropFile.toy_lz false false small_file) =
    OK ([WUnknownSig 0 7], Some (WData (DataError 93 (CWriter tt)))) /\
  r_result (encodeTo never (full_disk 82) PropFile.toy_lz false false small_file) = OK ([WUnknownSig 0 7], None).
Proof. split; [exact full_disk_contract|]. vm_compute. repeat split. Qed.
Example C77_bad_example : let f := FModel 0 0 0 [Chunk false (PUnknown 7 (str "hello")); Chunk false (PPrnt 0 [1%Z] [])] [] [] in
  r_result (encodeTo never accept_all PropFile.toy_lz false false f) =
    OK ([WUnknownSig 0 7], Some (WData (DataError 59 (CModel (EParentArray 1 0))))).
Proof. vm_compute. reflexivity. Qed.
