(** PropFile.v - properties C14-C20, C43 of chunks and the file container.
    Vocabulary: SpecModel.v, SpecFile.v. *)
From Verif Require Import Base RbxlValues RbxlArrays RbxlModel RbxlFile
  SpecValues SpecArrays SpecWire SpecModel SpecFile
  RbxlWordProofs RbxlValuesProofs TransposeProofs RbxlArraysProofs PropArrays PropWire RbxlModelProofs RbxlFileProofs.

(** A compressor satisfying the assumption: one marker byte and the payload. *)
Definition toy_lz : lz4 :=
  Lz4 (fun p => if (N.of_nat (length p) + 5 <? 2 ^ 32)%N then Some (x00 :: p) else None)
      (fun n c => match c with _ :: p => if (N.of_nat (length p) =? n)%N then Some p else None | [] => None end).
Lemma toy_lossless : lossless toy_lz.
Proof.
  split.
  - intros p c. cbn [lz_enc toy_lz]. destruct (_ <? _)%N eqn:E; [|discriminate]. intros [= <-].
    apply N.ltb_lt in E. change (2 ^ 32)%N with 4294967296%N in *. cbn [length lz_dec toy_lz].
    rewrite N.eqb_refl. repeat split; try discriminate; lia.
  - intros n [|x c] p; cbn [lz_dec toy_lz]; [discriminate|].
    destruct (N.eqb_spec (N.of_nat (length c)) n); [|discriminate]. now intros [= <-].
Qed.

(** C14: every well-formed payload can be written, and reads back, all bytes
    consumed; the counted kinds also leave following bytes alone. *)
Theorem C14_payload_roundtrip : forall spare g p, wf_payload g p ->
  exists b, payload_bytes p = OK b /\
    read_payload spare g (psig p) b = OK (stored_payload p, []) /\
    (In (psig p) [sigMETA; sigSSTR; sigINST; sigPRNT] ->
       forall rest, read_payload spare g (psig p) (b ++ rest) = OK (stored_payload p, rest)).
Proof. exact payload_roundtrip. Qed.
Definition inst_example : payload := PInst 7 (str "Part") [0; 5; 1]%Z true [x01; x00; x01].
Definition prop_example : payload := PProp 7 (str "Size") (Some (ARR tVector3 [VVector3 (Vec3 1 2 3); VVector3 (Vec3 4 5 6); VVector3 (Vec3 7 8 9)])).
Definition prnt_example : payload := PPrnt 0 [5; 0; 1]%Z [0; -1; 0]%Z.
Example C14_witness : wf_payload no_groups inst_example /\
  wf_payload (extend no_groups inst_example) prop_example /\ wf_payload no_groups prnt_example.
Proof.
  split; [|split].
  - repeat split; try reflexivity; try (repeat constructor; unfold int_range; lia); vm_compute; discriminate.
  - cbn [wf_payload prop_example]. split; [unfold int_range; lia|]. split; [vm_compute; reflexivity|].
    split; [|reflexivity]. split; [|split; [discriminate|exact I]]. constructor; [discriminate|].
    repeat constructor; vm_compute; reflexivity.
  - repeat split; try reflexivity; try (repeat constructor; unfold int_range; lia).
Qed.

(** C15: framing round-trips, followed by anything, for any lossless
    compressor; and the bytes are the documented frame. *)
Theorem C15_framing_roundtrip : forall lz c b rest,
  lossless lz -> f32 (raw_sig c) -> len32 (raw_payload c) ->
  raw_write lz c = OK b ->
  raw_read lz (b ++ rest) = OK (c, rest) /\
  exists f, b = frame_bytes f /\ frame_chunk lz f c /\ fr_reserved f = 0%N /\
    fr_dlen f = N.of_nat (length (raw_payload c)) /\ (raw_compressed c = false -> fr_body f = raw_payload c).
Proof.
  intros lz c b rest Hlz Hs Hp H.
  destruct (raw_write_frame lz c b Hlz Hs Hp H) as (f & -> & Hf & Hl & Hr & Hd).
  split; [now apply raw_read_frame|]. exists f. repeat split; auto; try apply Hf.
  intros Hc. destruct Hf as (_ & _ & H3 & H4). rewrite Hc in H3. destruct (fr_clen f =? 0)%N; [congruence|discriminate].
Qed.
(** Writing an uncompressed chunk never fails. *)
Theorem C15_uncompressed_total : forall lz sg p, exists b, raw_write lz (RbxlModel.Raw sg false p) = OK b.
Proof. intros. eexists. reflexivity. Qed.
Example C15_witness :
  lossless toy_lz /\
  raw_write toy_lz (RbxlModel.Raw sigEND true (str "ab")) =
    OK [x45;x4e;x44;x00; x03;x00;x00;x00; x02;x00;x00;x00; x00;x00;x00;x00; x00;x61;x62].
Proof. split; [exact toy_lossless|vm_compute; reflexivity]. Qed.

(** C16: a well-formed model, written (with compression or not) and decoded,
    gives the same counts, chunks and trailing bytes; the decoder's warnings
    are exactly the encoder's. *)
Definition written (uncompressed : bool) (c : chunk) : chunk :=
  Chunk (negb uncompressed && ch_compressed c) (stored_payload (ch_payload c)).

Lemma valid_known s : validChunk s = true <-> known_sig s.
Proof.
  unfold validChunk, known_sig. rewrite existsb_exists. split.
  - intros (x & Hx & E). apply N.eqb_eq in E. now subst.
  - intros H. exists s. split; [exact H|apply N.eqb_refl].
Qed.
Lemma sig_f32 g p : wf_payload g p -> f32 (psig p).
Proof. destruct p; try (intros _; reflexivity); [intros [H _]; exact H|intros []]. Qed.
Lemma known_or_unknown g p : wf_payload g p ->
  validChunk (psig p) = match p with PUnknown _ _ => false | _ => true end.
Proof.
  destruct p; try (intros _; reflexivity); [|intros []].
  intros [_ H]. cbn [psig]. destruct (validChunk sig) eqn:E; [|reflexivity]. apply valid_known in E. contradiction.
Qed.

Lemma OK_pair {E A B} (a a' : A) (b b' : B) : (OK (a, b) : outcome E (A * B)) = OK (a', b') -> a = a' /\ b' = b.
Proof. intros H. injection H as -> ->. now split. Qed.
Lemma enc_steps lz spare u : lossless lz -> forall g cs, wf_chunks g cs -> forall i n ws b,
  n = i + length cs ->
  enc_chunks lz u false i n cs = OK (ws, b) -> len32 b ->
  exists fs rcs, b = flat_map frame_bytes fs /\ Forall2 (good_frame lz) fs rcs /\
    steps spare g i rcs (map (written u) cs) ws.
Proof.
  intros Hlz g cs Hwf.
  assert (Hone : forall g0 c b0 i, wf_payload g0 (ch_payload c) -> enc_chunk lz u c = OK b0 -> len32 b0 ->
    exists f rc, b0 = frame_bytes f /\ good_frame lz f rc /\
      raw_compressed rc = (negb u && ch_compressed c)%bool /\
      step_out spare g0 i rc = Some (stored_payload (ch_payload c),
        match ch_payload c with
        | PUnknown s _ => [WUnknownSig i s]
        | PEnd c0 => (if (negb u && ch_compressed c)%bool then [WEndCompressed] else []) ++
                     (if bytes_eqb c0 endContent then [] else [WEndContent])
        | _ => [] end)).
  { intros g0 c b0 i Hp He Hl. destruct (payload_roundtrip spare g0 (ch_payload c) Hp) as (pb & P1 & P2 & _).
    unfold enc_chunk in He. rewrite P1 in He. cbn [obind] in He.
    set (rc := RbxlModel.Raw (psig (ch_payload c)) (negb u && ch_compressed c) pb) in *.
    assert (Hpl : len32 (raw_payload rc)).
    { destruct (negb u && ch_compressed c)%bool eqn:Ec; unfold rc, raw_write in He; cbn [raw_compressed raw_payload raw_sig] in He.
      - destruct (lz_enc lz pb) as [d|] eqn:Ed; [|discriminate]. destruct Hlz as [Hlz _].
        destruct (Hlz _ _ Ed) as (_ & _ & Q & _). exact Q.
      - assert (E : forall x y : bytes, (OK x : res bytes) = OK y -> y = x) by (intros x y Q; now injection Q). apply E in He. clear E.
        unfold len32 in *. unfold rc. cbn [raw_payload].
        revert Hl. rewrite He. unfold le32. rewrite !app_length, !le_bytes_length. change (2 ^ 32)%N with 4294967296%N. lia. }
    destruct (raw_write_frame lz rc b0 Hlz (sig_f32 g0 (ch_payload c) Hp) Hpl He) as (f & F1 & F2 & F3 & _).
    exists f, rc. split; [exact F1|]. split; [now split|]. split; [reflexivity|].
    unfold step_out. unfold rc at 1 2. cbn [raw_sig raw_payload]. rewrite P2.
    destruct (ch_payload c) eqn:Ep; try reflexivity; try now destruct Hp. cbn [stored_payload].
    destruct props; reflexivity. }
  induction Hwf as [g comp content|g c cs Hne Hp Hwf IH]; intros i n ws b Hn He Hl; cbn [enc_chunks] in He.
  - apply bind_OK in He. destruct He as (b0 & E1 & He). cbn [obind] in He. injection He as <- <-.
    rewrite app_nil_r in *.
    destruct (Hone g (Chunk comp (PEnd content)) b0 i I E1 Hl) as (f & rc & F1 & F2 & F3 & F4).
    exists [f], [rc]. cbn [flat_map map]. rewrite app_nil_r. split; [exact F1|]. split; [constructor; [exact F2|constructor]|].
    cbn [ch_compressed ch_payload stored_payload] in F3, F4. unfold written. cbn [ch_compressed ch_payload stored_payload].
    rewrite <- F3. unfold enc_warns. cbn [ch_compressed ch_payload psig].
    replace (S i =? n)%nat with true by (symmetry; apply Nat.eqb_eq; cbn in Hn; lia).
    change (validChunk sigEND) with true. cbn [negb andb app]. rewrite app_nil_r, andb_true_r.
    rewrite <- F3 in *. replace (if negb (bytes_eqb content endContent) then [WEndContent] else [])
      with (if bytes_eqb content endContent then [] else [WEndContent]) by now destruct (bytes_eqb content endContent).
    apply steps_end; [|reflexivity]. rewrite ?app_nil_r. exact F4.
  - apply bind_OK in He. destruct He as (b0 & E1 & He). apply bind_OK in He. destruct He as ([ws1 b1] & E2 & He).
    injection He as <- <-.
    assert (Hl0 : len32 b0) by (unfold len32 in *; rewrite app_length in Hl; lia).
    assert (Hl1 : len32 b1) by (unfold len32 in *; rewrite app_length in Hl; lia).
    destruct (Hone g c b0 i Hp E1 Hl0) as (f & rc & F1 & F2 & F3 & F4).
    destruct (IH (S i) n ws1 b1) as (fs & rcs & G1 & G2 & G3); [cbn in Hn; lia|exact E2|exact Hl1|].
    exists (f :: fs), (rc :: rcs). cbn [flat_map map]. rewrite F1, G1. split; [reflexivity|].
    split; [constructor; assumption|]. unfold written at 1. rewrite <- F3.
    assert (Hw : enc_warns u false i n c = match ch_payload c with PUnknown s _ => [WUnknownSig i s] | _ => [] end).
    { unfold enc_warns. rewrite (known_or_unknown g) by exact Hp.
      destruct (ch_payload c) eqn:Ep; try reflexivity. now destruct (Hne content). }
    rewrite Hw. econstructor.
    + rewrite F4. destruct (ch_payload c) eqn:Ep; try reflexivity. now destruct (Hne content).
    + destruct (ch_payload c) as [| | |? ? []| | | |] eqn:Ep; try reflexivity. now destruct (Hne content).
    + eapply steps_ext; [exact G3|]. intros k. destruct (ch_payload c) as [| | |? ? []| | | |]; reflexivity.
Qed.

Lemma grow_all_written u cs : forall g i, grow_all g i (map (written u) cs) = grow_all g i cs.
Proof.
  induction cs as [|c cs IH]; intros g i; [reflexivity|]. cbn [map grow_all]. rewrite IH. f_equal.
  unfold written. cbn [ch_payload]. destruct (ch_payload c) as [| | |? ? []| | | |]; reflexivity.
Qed.
Theorem C16_file_roundtrip : forall lz spare noXML u f ws b,
  lossless lz -> fm_version f = 0%N -> f32 (fm_classCount f) -> f32 (fm_instCount f) ->
  wf_chunks no_groups (fm_chunks f) -> len32 b ->
  encode lz u false f = OK (ws, b) ->
  exists st, decode lz spare noXML b =
    OK (DModel (FModel 0 (fm_classCount f) (fm_instCount f) (map (written u) (fm_chunks f)) (fm_trailing f)
                  (grow_all [] 0 (fm_chunks f))), ws, st).
Proof.
  intros lz spare noXML u f ws b Hlz Hv Hc Hi Hwf Hl H. unfold encode in H.
  apply bind_OK in H. destruct H as ([ws1 b1] & E & H). apply OK_pair in H. destruct H as [<- Hb].
  rewrite Hv in *. subst b.
  assert (Hb1 : len32 b1). { unfold len32 in *. rewrite !app_length in Hl. lia. }
  destruct (enc_steps lz spare u Hlz _ _ Hwf 0 _ ws1 b1 eq_refl E Hb1) as (fs & rcs & F1 & F2 & F3).
  pose proof (decode_frames lz spare noXML (fm_classCount f) (fm_instCount f) (repeat x00 8) fs rcs (fm_trailing f) _ _
    Hc Hi eq_refl F2 F3) as Eg.
  rewrite grow_all_written in Eg.
  exists (count_all (Stats false 0 (fm_classCount f) (fm_instCount f) 0 []) (map (written u) (fm_chunks f))).
  rewrite <- F1, header_eq in Eg. change (warn0 (repeat x00 8)) with (@nil warning) in Eg. rewrite app_nil_l in Eg.
  rewrite <- Eg. f_equal.
Qed.
(** Encoding a well-formed model without compression never fails. *)
Theorem C16_encode_total : forall lz f, wf_chunks no_groups (fm_chunks f) ->
  exists ws b, encode lz true false f = OK (ws, b).
Proof.
  intros lz f H. unfold encode.
  enough (E : forall g cs, wf_chunks g cs -> forall i n, exists wb, enc_chunks lz true false i n cs = OK wb).
  { destruct (E _ _ H 0 (length (fm_chunks f))) as [[ws b] ->]. cbn [obind]. eauto. }
  clear f H. induction 1 as [g comp content|g c cs Hne Hp Hwf IH]; intros i n; cbn [enc_chunks].
  - unfold enc_chunk. cbn. eauto.
  - unfold enc_chunk. destruct (payload_roundtrip (fun _ => 0) g _ Hp) as (pb & -> & _). cbn.
    destruct (IH (S i) n) as [[ws b] ->]. cbn. eauto.
Qed.
Definition file_example : fmodel :=
  FModel 0 8 6 [Chunk true inst_example; Chunk true prop_example; Chunk false (PUnknown 1 (str "??"));
                Chunk true prnt_example; Chunk false (PEnd endContent)] (str "tail") [].
Example C16_witness : wf_chunks no_groups (fm_chunks file_example) /\
  exists b, encode toy_lz false false file_example = OK ([WUnknownSig 2 1], b) /\ length b = 240.
Proof.
  split.
  - destruct C14_witness as (H1 & H2 & H3). cbn [fm_chunks file_example].
    repeat (constructor; cbn [ch_payload]; [discriminate| |]); auto; [|constructor].
    split; [reflexivity|]. unfold known_sig. cbn [In]. unfold sigMETA, sigSSTR, sigINST, sigPROP, sigPRNT, sigEND. intuition discriminate.
  - vm_compute. eexists. split; reflexivity.
Qed.

(** C17: decoding terminates on every input: it never runs out of fuel, and if
    it panics then the input has a compressed length within four of 2^32, or a
    CFrame array is cut short (C13). *)
Theorem C17_decode_total : forall lz spare noXML input,
  decode lz spare noXML input <> Hang /\
  (decode lz spare noXML input = Panic ->
     (exists pre sg cl r, input = pre ++ emit [LE 4 sg; LE 4 cl] ++ r /\ f32 cl /\ (2 ^ 32 <= cl + 4)%N) \/
     (exists n raw, cframe_positions_missing (spare (length raw)) n raw)).
Proof.
  intros lz spare noXML input. unfold decode.
  destruct (decode_cases lz (dec_step spare) noXML input)
    as [(cc & ic & rsv & b & -> & H1 & H2 & H3 & E)|[(c & r & _ & _ & E)|(e & st' & E & _)]];
    rewrite E; [|split; destruct noXML; discriminate|split; discriminate].
  unfold after_header. fold (warn0 rsv).
  pose proof (loop_inv lz (dec_step spare) (S (length b)) 0 b (DState [] (warn0 rsv) [] (Stats false 0 cc ic 0 []))
    ltac:(lia)) as L.
  assert (Hh : forall i rc s, dec_step spare i rc s <> Hang).
  { intros i rc s0. rewrite dec_step_out. destruct (step_out _ _ _ _) as [[p w]|]; discriminate. }
  specialize (L Hh).
  destruct (chunk_loop _ _ _ _ _ _) as [[s rest]|[e s]| |]; try (split; discriminate); [|destruct L].
  split; [discriminate|]. intros _. destruct L as [(pre & sg & cl & r & -> & Hc)|(i & rc & s & Hp)].
  - left. exists (header 0 cc ic rsv ++ pre), sg, cl, r. unfold emit. cbn [flat_map]. rewrite <- !emit_LE, app_nil_r, <- !app_assoc.
    split; [reflexivity|exact Hc].
  - right. unfold dec_step in Hp.
    destruct (read_payload_safe spare (group_len (ds_groups s)) (raw_sig rc) (raw_payload rc)) as [S|(_ & _ & S)]; [|exact S].
    destruct (read_payload _ _ _ _) as [[p r]|[e r]| |]; try discriminate; destruct S.
Qed.
(** Every byte is accounted for: header, one frame per chunk (with the chunk's
    signature and compression flag), trailing; END is the last chunk and only
    that. *)
Theorem C17_every_byte_accounted : forall lz spare noXML input f ws st,
  decode lz spare noXML input = OK (DModel f, ws, st) ->
  exists rsv fs,
    input = header 0 (fm_classCount f) (fm_instCount f) rsv ++ flat_map frame_bytes fs ++ fm_trailing f /\
    length rsv = 8 /\ fm_version f = 0%N /\
    Forall2 (fun fr c => frame_ok fr /\ psig (ch_payload c) = fr_sig fr /\
                         ch_compressed c = negb (fr_clen fr =? 0)%N) fs (fm_chunks f) /\
    exists cs last, fm_chunks f = cs ++ [last] /\ is_end last = true /\
      forall c, In c cs -> psig (ch_payload c) <> sigEND.
Proof.
  intros lz spare noXML input f ws st H.
  destruct (decode_model_inv _ _ _ _ _ _ _ H) as (cc & ic & rsv & fs & rcs & cs & w & g & Hg0 & Hin & H1 & H2 & H3 & Hf & Hs & Hw & Ef & _).
  exists rsv, fs. rewrite Ef. cbn [fm_classCount fm_instCount fm_chunks fm_version fm_trailing]. rewrite Hin, Ef. cbn [fm_trailing].
  split; [reflexivity|]. split; [exact H3|]. split; [reflexivity|].
  clear -Hf Hs. revert fs Hf. generalize dependent no_groups. generalize 0.
  intros i g Hs. induction Hs as [g i rc p w H1 H2|g i rc rcs p w cs ws H1 H2 H3 IH]; intros fs Hf.
  - inversion Hf as [|fr ? fs' ? [Hfr _] Hrest]; subst. inversion Hrest; subst.
    destruct (step_out_spec _ _ _ _ _ _ H1) as (Hsig & _).
    destruct Hfr as (F1 & F2 & F3 & _). split.
    + constructor; [|constructor]. cbn. rewrite Hsig. repeat split; auto; apply F1.
    + exists [], (Chunk (raw_compressed rc) p). split; [reflexivity|]. split; [|intros c []].
      unfold is_end. cbn [ch_payload]. destruct p; try discriminate; reflexivity.
  - inversion Hf as [|fr ? fs' ? [Hfr _] Hrest]; subst. destruct (IH _ Hrest) as [I1 (cs' & last & I2 & I3 & I4)].
    destruct (step_out_spec _ _ _ _ _ _ H1) as (Hsig & Hend & _).
    destruct Hfr as (F1 & F2 & F3 & _). split.
    + constructor; [|exact I1]. cbn. rewrite Hsig. repeat split; auto; apply F1.
    + exists (Chunk (raw_compressed rc) p :: cs'), last. rewrite I2. split; [reflexivity|]. split; [exact I3|].
      intros c [<-|Hc]; [|now apply I4]. cbn [ch_payload]. rewrite Hsig. intros Hq. apply Hend in Hq. congruence.
Qed.
Definition bytes_example : bytes :=
  match encode toy_lz false false file_example with OK (_, b) => b | _ => [] end.
Example C17_witness :
  exists f ws st, decode toy_lz (fun _ => 0) false bytes_example = OK (DModel f, ws, st) /\
    length (fm_chunks f) = 5 /\ fm_trailing f = str "tail".
Proof. vm_compute. eexists _, _, _. split; [reflexivity|]. split; reflexivity. Qed.
(** The framing panic is reachable: a 20-byte chunk header after the file header. *)
Example C17_witness_panic :
  decode toy_lz (fun _ => 0) false (header 0 0 0 (repeat x00 8) ++ str "ABCD" ++ [xfc; xff; xff; xff] ++ repeat x00 8) = Panic.
Proof. vm_compute. reflexivity. Qed.

(** C18: a decoded binary model starts with the magic and version 0; XML is
    handed on whole, only when allowed and only when the marker differs;
    everything else is an error. *)
Theorem C18_bad_header_rejected : forall lz spare noXML input,
  (forall f ws st, decode lz spare noXML input = OK (DModel f, ws, st) ->
     exists cc ic rsv b, length rsv = 8 /\ input = header 0 cc ic rsv ++ b) /\
  (forall b ws st, decode lz spare noXML input = OK (DXml b, ws, st) <->
     noXML = false /\ ws = [] /\ st = Stats true 0 0 0 0 [] /\ b = input /\
     exists c rest, c <> x21 /\ input = str "<roblox" ++ c :: rest) /\
  ((forall cc ic rsv b, length rsv = 8 -> input <> header 0 cc ic rsv ++ b) ->
   (noXML = true \/ forall c rest, c <> x21 -> input <> str "<roblox" ++ c :: rest) ->
   exists e st, decode lz spare noXML input = Err (e, [], st)).
Proof.
  intros lz spare noXML input. unfold decode.
  destruct (decode_cases lz (dec_step spare) noXML input)
    as [(cc & ic & rsv & b & Hin & H1 & H2 & H3 & E)|[(c & r & Hc & Hin & E)|(e & st' & E & Hx & Hno)]].
  - split; [intros; eauto 7|]. split.
    + intros b' ws st. rewrite E. split.
      * unfold after_header. destruct (chunk_loop _ _ _ _ _ _) as [[s rest]|[e s]| |]; discriminate.
      * intros (_ & _ & _ & _ & c & rest & Hc & Hq). exfalso. rewrite Hin, header_eq in Hq. cbn in Hq. congruence.
    + intros Hno _. exfalso. eapply Hno; eauto.
  - split; [intros f ws st; rewrite E; destruct noXML; discriminate|]. split.
    + intros b' ws st. rewrite E. split.
      * destruct noXML; [discriminate|]. intros [= <- <- <-]. repeat split; eauto.
      * intros (-> & -> & -> & -> & _). reflexivity.
    + intros Hno [->|Hn]; [rewrite E; eauto|]. exfalso. now apply (Hn c r).
  - split; [intros f ws st; rewrite E; discriminate|]. split; [|intros; rewrite E; eauto].
    intros b' ws st. rewrite E. split; [discriminate|]. intros (_ & _ & _ & _ & c & rest & Hc & Hq). exfalso.
    destruct (Hx c rest); [contradiction|congruence].
Qed.
Example C18_witness :
  (exists st, decode toy_lz (fun _ => 0) false (str "<roblox xmlns") = OK (DXml (str "<roblox xmlns"), [], st)) /\
  (exists e st, decode toy_lz (fun _ => 0) true (str "<roblox xmlns") = Err (e, [], st)) /\
  (exists st, decode toy_lz (fun _ => 0) false (magic ++ [x01; x00]) = Err (EVersion 1, [], st)).
Proof. vm_compute. split; [|split]; repeat eexists. Qed.

(** C19: an errored chunk keeps its bytes and gives exactly one warning (the
    chunk warnings are those of the errored chunks, in order) ... *)
Fixpoint errors_of (i : nat) (cs : list chunk) : list warning :=
  match cs with
  | [] => []
  | c :: cs => match ch_payload c with PErrored sg _ e _ => [WChunk i sg e] | _ => [] end ++ errors_of (S i) cs
  end.
Lemma steps_errors spare g i rcs cs ws : steps spare g i rcs cs ws -> filter is_wchunk ws = errors_of i cs.
Proof.
  induction 1 as [g i rc p w H1 H2|g i rc rcs p w cs ws H1 H2 H3 IH].
  - destruct (step_out_spec _ _ _ _ _ _ H1) as (_ & _ & Hw & _). rewrite Hw. cbn. now rewrite app_nil_r.
  - destruct (step_out_spec _ _ _ _ _ _ H1) as (_ & _ & Hw & _). rewrite filter_app, Hw, IH. reflexivity.
Qed.
Lemma steps_forall2 spare g i rcs cs ws : steps spare g i rcs cs ws ->
  Forall2 (fun rc c => is_errored c = true -> exists off e,
     ch_payload c = PErrored (raw_sig rc) off e (raw_payload rc) /\ off <= length (raw_payload rc)) rcs cs.
Proof.
  assert (Hone : forall g i rc p w, step_out spare g i rc = Some (p, w) -> is_errored (Chunk (raw_compressed rc) p) = true ->
    exists off e, ch_payload (Chunk (raw_compressed rc) p) = PErrored (raw_sig rc) off e (raw_payload rc) /\ off <= length (raw_payload rc)).
  { intros g0 i0 rc p w H1 He. destruct (step_out_spec _ _ _ _ _ _ H1) as (_ & _ & _ & Hp).
    destruct Hp as (off & e & -> & Ho & _); [exact He|]. exists off, e. split; [reflexivity|exact Ho]. }
  induction 1 as [g i rc p w H1 H2|g i rc rcs p w cs ws H1 H2 H3 IH]; constructor; eauto.
Qed.
Theorem C19_errored_chunk_kept : forall lz spare noXML input f ws st,
  decode lz spare noXML input = OK (DModel f, ws, st) ->
  filter is_wchunk ws = errors_of 0 (fm_chunks f) /\
  exists rsv fs rcs,
    input = header 0 (fm_classCount f) (fm_instCount f) rsv ++ flat_map frame_bytes fs ++ fm_trailing f /\
    Forall2 (frame_chunk lz) fs rcs /\
    Forall2 (fun rc c => is_errored c = true -> exists off e,
       ch_payload c = PErrored (raw_sig rc) off e (raw_payload rc) /\ off <= length (raw_payload rc)) rcs (fm_chunks f).
Proof.
  intros lz spare noXML input f ws st H.
  destruct (decode_model_inv _ _ _ _ _ _ _ H) as (cc & ic & rsv & fs & rcs & cs & w & g & Hg0 & Hin & H1 & H2 & H3 & Hf & Hs & -> & Ef & _).
  rewrite Ef. cbn [fm_chunks]. split.
  - rewrite filter_app, (steps_errors _ _ _ _ _ _ Hs). unfold warn0. destruct (bytes_eqb _ _); reflexivity.
  - exists rsv, fs, rcs. cbn [fm_classCount fm_instCount fm_trailing]. split; [rewrite Hin, Ef; reflexivity|].
    split; [|eapply steps_forall2; exact Hs].
    clear -Hf. induction Hf as [|fr rc fs rcs [Hg _] Hf IH]; constructor; auto.
Qed.
(** ... and removing its frame from the file changes no other chunk. *)
Lemma steps_remove spare g i rcs cs ws : steps spare g i rcs cs ws -> forall k c,
  nth_error cs k = Some c -> is_errored c = true -> forall j,
  exists ws', steps spare g j (firstn k rcs ++ skipn (S k) rcs) (firstn k cs ++ skipn (S k) cs) ws'.
Proof.
  assert (Hidx : forall g i j rc p w, step_out spare g i rc = Some (p, w) -> exists w', step_out spare g j rc = Some (p, w')).
  { intros g0 i0 j0 rc p w. unfold step_out. destruct (read_payload _ _ _ _) as [[p0 r]|[e r]| |]; try discriminate; intros [= <- <-]; eauto. }
  assert (Hsh : forall g i rcs cs ws, steps spare g i rcs cs ws -> forall j, exists ws', steps spare g j rcs cs ws').
  { induction 1 as [g0 i0 rc p w H1 H2|g0 i0 rc rcs0 p w cs0 ws0 H1 H2 H3 IH]; intros j; destruct (Hidx _ _ j _ _ _ H1) as [w' H1'].
    - exists w'. now constructor.
    - destruct (IH (S j)) as [ws' Hs]. exists (w' ++ ws'). econstructor; eauto. }
  induction 1 as [g i rc p w H1 H2|g i rc rcs p w cs ws H1 H2 H3 IH]; intros k c Hk He j.
  - destruct k as [|k]; [|destruct k; discriminate]. injection Hk as <-. cbn in He.
    destruct p; try discriminate.
  - destruct k as [|k].
    + injection Hk as <-. cbn [firstn skipn app]. destruct (Hsh _ _ _ _ _ H3 j) as [ws' Hs]. exists ws'.
      unfold is_errored in He. cbn [ch_payload] in He. destruct p; try discriminate. exact Hs.
    + cbn [nth_error] in Hk. destruct (IH k c Hk He (S j)) as [ws' Hs]. destruct (Hidx _ _ j _ _ _ H1) as [w' H1'].
      exists (w' ++ ws'). cbn [firstn skipn app]. econstructor; eauto.
Qed.
Lemma forall2_nth {A B} (R : A -> B -> Prop) l1 l2 : Forall2 R l1 l2 -> forall k b, nth_error l2 k = Some b ->
  exists a, nth_error l1 k = Some a /\ R a b.
Proof. induction 1; intros [|k] b0 Hk; try discriminate; cbn in *; [injection Hk as <-; eauto|eauto]. Qed.
Lemma split_nth {A} (l : list A) k a : nth_error l k = Some a -> l = firstn k l ++ a :: skipn (S k) l.
Proof.
  revert k; induction l as [|x l IH]; intros [|k] H; try discriminate; cbn in *; [injection H as <-; reflexivity|].
  f_equal. now apply IH.
Qed.
Theorem C19_errored_chunk_contained : forall lz spare noXML input f ws st k c,
  decode lz spare noXML input = OK (DModel f, ws, st) ->
  nth_error (fm_chunks f) k = Some c -> is_errored c = true ->
  exists pre fr post g ws' st',
    input = pre ++ frame_bytes fr ++ post /\ fr_sig fr = psig (ch_payload c) /\
    decode lz spare noXML (pre ++ post) =
      OK (DModel (FModel 0 (fm_classCount f) (fm_instCount f)
                         (firstn k (fm_chunks f) ++ skipn (S k) (fm_chunks f)) (fm_trailing f) g), ws', st').
Proof.
  intros lz spare noXML input f ws st k c H Hk He.
  destruct (decode_model_inv _ _ _ _ _ _ _ H) as (cc & ic & rsv & fs & rcs & cs & w & g & Hg0 & Hin & H1 & H2 & H3 & Hf & Hs & -> & Ef & _).
  rewrite Ef in Hk |- *. cbn [fm_chunks fm_classCount fm_instCount fm_trailing] in *.
  destruct (steps_remove _ _ _ _ _ _ Hs k c Hk He 0) as [w' Hs'].
  destruct (forall2_nth _ _ _ (steps_forall2 _ _ _ _ _ _ Hs) k c Hk) as (rc & Hrc & Hp).
  destruct (forall2_nth _ _ _ Hf k rc Hrc) as (fr & Hfr & [Hg _]).
  assert (Hf' : Forall2 (good_frame lz) (firstn k fs ++ skipn (S k) fs) (firstn k rcs ++ skipn (S k) rcs)).
  { clear -Hf. revert k. induction Hf as [|a b l l' Hab Hl IH]; intros [|k]; cbn; try constructor; auto. apply IH. }
  pose proof (decode_frames lz spare noXML cc ic rsv _ _ (fm_trailing f) _ _ H1 H2 H3 Hf' Hs') as E.
  exists (header 0 cc ic rsv ++ flat_map frame_bytes (firstn k fs)), fr, (flat_map frame_bytes (skipn (S k) fs) ++ fm_trailing f).
  eexists _, _, _. split; [|split].
  - rewrite Hin. rewrite (split_nth fs k fr Hfr) at 1. rewrite flat_map_app. cbn [flat_map]. rewrite <- !app_assoc. reflexivity.
  - destruct (Hp He) as (off & e & -> & _). cbn [psig]. symmetry. apply Hg.
  - rewrite flat_map_app in E. rewrite <- !app_assoc in *. exact E.
Qed.
Definition broken_file : bytes :=
  match encode toy_lz true false (FModel 0 1 1
    [Chunk false (PInst 0 (str "Part") [0%Z] false []); Chunk false (PUnknown sigPROP (str "abc"));
     Chunk false (PEnd endContent)] [] []) with OK (_, b) => b | _ => [] end.
Example C19_witness : exists f st off e,
  decode toy_lz (fun _ => 0) false broken_file = OK (DModel f, [WChunk 1 sigPROP e], st) /\
  nth_error (fm_chunks f) 1 = Some (Chunk false (PErrored sigPROP off e (str "abc"))) /\ length (fm_chunks f) = 3.
Proof. vm_compute. repeat eexists. Qed.

(** C20: Decompress. *)
Definition plain (rc : rawchunk) : frame := Frame (raw_sig rc) 0 (N.of_nat (length (raw_payload rc))) 0 (raw_payload rc).

Lemma run_dcomp rcs : forall i s s', run (fun _ rc s => OK (dcomp_step rc s)) i rcs s = OK s' ->
  ds_chunks s' = ds_chunks s ++ map (fun rc => Chunk (raw_compressed rc) (PUnknown (raw_sig rc) (raw_payload rc))) rcs /\
  ds_warns s' = ds_warns s /\ ds_groups s' = ds_groups s.
Proof.
  induction rcs as [|rc rcs IH]; intros i s s' H; [discriminate|]. cbn [run dcomp_step] in H.
  destruct (raw_sig rc =? sigEND)%N.
  - destruct rcs; [|discriminate]. injection H as <-. cbn. auto.
  - destruct (IH _ _ _ H) as (E1 & E2 & E3). rewrite E1, E2, E3. cbn [ds_chunks ds_warns ds_groups map]. rewrite <- app_assoc. auto.
Qed.
Lemma run_dcomp_iff rcs : forall i j s s0 s', run (fun _ rc s => OK (dcomp_step rc s)) i rcs s = OK s' ->
  exists s0', run (fun _ rc s => OK (dcomp_step rc s)) j (map (fun rc => RbxlModel.Raw (raw_sig rc) false (raw_payload rc)) rcs) s0 = OK s0'.
Proof.
  induction rcs as [|rc rcs IH]; intros i j s s0 s' H; [discriminate|]. cbn [run dcomp_step map] in *.
  cbn [raw_sig]. destruct (raw_sig rc =? sigEND)%N.
  - destruct rcs; [|discriminate]. cbn. eauto.
  - eapply IH. exact H.
Qed.
Lemma plain_good lz f rc : fills lz -> frame_chunk lz f rc ->
  good_frame lz (plain rc) (RbxlModel.Raw (raw_sig rc) false (raw_payload rc)).
Proof.
  intros Hl ((F1 & F2 & F3 & F4 & F5) & F6 & F7 & F8).
  assert (Hd : f32 (N.of_nat (length (raw_payload rc)))).
  { destruct (fr_clen f =? 0)%N; [rewrite F8, F5; exact F3|]. rewrite (Hl _ _ _ F8). exact F3. }
  split; [|reflexivity]. unfold frame_chunk, frame_ok, plain. cbn. rewrite F6. repeat split; auto.
Qed.
Lemma enc_plain lz rcs : forall i n, enc_chunks lz true true i n
   (map (fun rc => Chunk (raw_compressed rc) (PUnknown (raw_sig rc) (raw_payload rc))) rcs) =
  OK ([], flat_map frame_bytes (map plain rcs)).
Proof.
  induction rcs as [|rc rcs IH]; intros i n; [reflexivity|]. cbn [map enc_chunks enc_chunk ch_payload payload_bytes obind psig].
  cbn [negb andb raw_write raw_compressed raw_sig raw_payload obind]. rewrite IH. cbn [obind].
  unfold enc_warns. cbn [ch_payload psig]. rewrite andb_false_r. cbn [app flat_map]. unfold plain at 2. rewrite frame_eq. reflexivity.
Qed.

Lemma decode_dcomp_inv lz noXML input f ws st :
  decode_dcomp lz noXML input = OK (DModel f, ws, st) ->
  exists cc ic rsv fs rcs s s',
    input = header 0 cc ic rsv ++ flat_map frame_bytes fs ++ fm_trailing f /\
    f32 cc /\ f32 ic /\ length rsv = 8 /\ Forall2 (good_frame lz) fs rcs /\ ws = warn0 rsv /\
    run (fun _ rc s => OK (dcomp_step rc s)) 0 rcs s = OK s' /\
    f = FModel 0 cc ic (map (fun rc => Chunk (raw_compressed rc) (PUnknown (raw_sig rc) (raw_payload rc))) rcs) (fm_trailing f) [].
Proof.
  unfold decode_dcomp. intros H.
  destruct (decode_cases lz (fun _ rc s => OK (dcomp_step rc s)) noXML input)
    as [(cc & ic & rsv & b & -> & H1 & H2 & H3 & E)|[(c & r & _ & _ & E)|(e & st' & E & _)]];
    rewrite E in H; [|destruct noXML; discriminate|discriminate].
  unfold after_header in H. fold (warn0 rsv) in H.
  pose proof (loop_inv lz (fun _ rc s => OK (dcomp_step rc s)) (S (length b)) 0 b (DState [] (warn0 rsv) [] (Stats false 0 cc ic 0 []))
    ltac:(lia)) as L.
  destruct (chunk_loop _ _ _ _ _ _) as [[s rest]|[e s]| |]; try discriminate. injection H as <- <- <-.
  destruct L as (fs & rcs & -> & Hf & Hr); [discriminate|].
  destruct (run_dcomp _ _ _ _ Hr) as (E1 & E2 & E3). cbn in E1, E2, E3.
  exists cc, ic, rsv, fs, rcs. eexists _, s. cbn [fm_trailing]. rewrite E1, E2, E3. repeat split; eauto.
Qed.

(** The output has the same header fields, the same chunks uncompressed, the
    same trailing bytes. *)
Theorem C20_decompress_layout : forall lz noXML input ws b, fills lz ->
  decompress lz noXML input = OK (ws, b) ->
  exists cc ic rsv fs rcs trailing,
    length rsv = 8 /\ input = header 0 cc ic rsv ++ flat_map frame_bytes fs ++ trailing /\
    Forall2 (frame_chunk lz) fs rcs /\
    b = header 0 cc ic (repeat x00 8) ++
        flat_map (fun rc => frame_bytes (Frame (raw_sig rc) 0 (N.of_nat (length (raw_payload rc))) 0 (raw_payload rc))) rcs
        ++ trailing /\
    ws = (if bytes_eqb rsv (repeat x00 8) then [] else [WReserve 24 rsv]).
Proof.
  intros lz noXML input ws b Hl H. unfold decompress in H.
  destruct (decode_dcomp lz noXML input) as [[[[x|f] ws1] st]|[[e ws1] st]| |] eqn:E; try discriminate.
  destruct (decode_dcomp_inv _ _ _ _ _ _ E) as (cc & ic & rsv & fs & rcs & s & s' & Hin & H1 & H2 & H3 & Hf & Hw & Hr & Ef).
  rewrite Ef in H. unfold encode in H. cbn [fm_chunks fm_version fm_classCount fm_instCount fm_trailing] in H.
  rewrite enc_plain in H. cbn [obind] in H. injection H as <- <-. rewrite app_nil_r.
  exists cc, ic, rsv, fs, rcs, (fm_trailing f). split; [exact H3|]. split; [exact Hin|].
  split; [clear -Hf; induction Hf as [|? ? ? ? [Hg _] ? ?]; constructor; auto|]. split; [|exact Hw].
  rewrite header_eq, <- !app_assoc. do 6 f_equal. rewrite flat_map_concat_map, map_map, <- flat_map_concat_map. reflexivity.
Qed.
(** Decompress succeeds exactly on what frames correctly. *)
Theorem C20_decompress_succeeds : forall lz noXML input f ws st, fills lz ->
  decode_dcomp lz noXML input = OK (DModel f, ws, st) ->
  exists ws' b, decompress lz noXML input = OK (ws', b).
Proof.
  intros lz noXML input f ws st Hl E. unfold decompress. rewrite E.
  destruct (decode_dcomp_inv _ _ _ _ _ _ E) as (cc & ic & rsv & fs & rcs & s & s' & Hin & H1 & H2 & H3 & Hf & Hw & Hr & Ef).
  rewrite Ef. unfold encode. cbn [fm_chunks]. rewrite enc_plain. cbn. eauto.
Qed.

(** Decoding the output equals decoding the input, but for the compression
    flags and the two warnings that no longer apply. *)
Definition gone (w : warning) : bool := match w with WReserve _ _ | WEndCompressed => true | _ => false end.
Lemma steps_plain spare g i rcs cs ws : steps spare g i rcs cs ws ->
  steps spare g i (map (fun rc => RbxlModel.Raw (raw_sig rc) false (raw_payload rc)) rcs) (map uncompress cs)
    (filter (fun w => negb (gone w)) ws).
Proof.
  assert (Hone : forall g i rc p w, step_out spare g i rc = Some (p, w) ->
    step_out spare g i (RbxlModel.Raw (raw_sig rc) false (raw_payload rc)) = Some (p, filter (fun w => negb (gone w)) w)).
  { intros g0 i0 rc p w. unfold step_out. cbn [raw_sig raw_payload raw_compressed].
    destruct (read_payload _ _ _ _) as [[p0 r]|[e r]| |]; try discriminate; intros [= <- <-]; [|reflexivity].
    destruct p0; try reflexivity. do 2 f_equal. destruct (raw_compressed rc), (bytes_eqb content endContent); reflexivity. }
  induction 1 as [g i rc p w H1 H2|g i rc rcs p w cs ws H1 H2 H3 IH]; cbn [map].
  - apply (steps_end spare g i (RbxlModel.Raw (raw_sig rc) false (raw_payload rc))); auto.
  - rewrite filter_app. apply (steps_cons spare g i (RbxlModel.Raw (raw_sig rc) false (raw_payload rc))); auto.
Qed.
Lemma steps_dcomp spare g i rcs cs ws : steps spare g i rcs cs ws -> forall j s, exists s',
  run (fun _ rc s => OK (dcomp_step rc s)) j rcs s = OK s'.
Proof.
  induction 1 as [g i rc p w H1 H2|g i rc rcs p w cs ws H1 H2 H3 IH]; intros j s; cbn [run dcomp_step];
    destruct (step_out_spec _ _ _ _ _ _ H1) as (_ & Hend & _).
  - apply Hend in H2. apply N.eqb_eq in H2. rewrite H2. eauto.
  - destruct (N.eqb_spec (raw_sig rc) sigEND) as [Hq|_]; [apply Hend in Hq; congruence|]. apply IH.
Qed.
Lemma count_uncompress cs : forall st, count_all st (map uncompress cs) = count_all st cs.
Proof. induction cs as [|c cs IH]; intros st; [reflexivity|]. unfold count_all in *. cbn [map fold_left uncompress ch_payload]. apply IH. Qed.

Lemma grow_all_uncompress cs : forall g i, grow_all g i (map uncompress cs) = grow_all g i cs.
Proof. induction cs as [|c cs IH]; intros g i; [reflexivity|]. cbn [map grow_all]. now rewrite IH. Qed.
Theorem C20_decompress_decodes_same : forall lz spare noXML input f ws st, fills lz ->
  decode lz spare noXML input = OK (DModel f, ws, st) ->
  exists ws' b, decompress lz noXML input = OK (ws', b) /\
    decode lz spare noXML b =
      OK (DModel (FModel 0 (fm_classCount f) (fm_instCount f) (map uncompress (fm_chunks f)) (fm_trailing f) (fm_groups f)),
          filter (fun w => negb (gone w)) ws, st).
Proof.
  intros lz spare noXML input f ws st Hl H.
  destruct (decode_model_inv _ _ _ _ _ _ _ H) as (cc & ic & rsv & fs & rcs & cs & w & g & Hg0 & Hin & H1 & H2 & H3 & Hf & Hs & -> & Ef & ->).
  destruct (steps_dcomp _ _ _ _ _ _ Hs 0 (DState [] (warn0 rsv) [] (Stats false 0 cc ic 0 []))) as [s' Hr].
  pose proof (loop_frames lz _ fs rcs Hf 0 _ s' (fm_trailing f) _ Hr (flat_frames_fuel lz fs rcs (fm_trailing f) Hf)) as L.
  assert (Hd : exists st, decode_dcomp lz noXML input = OK (DModel (FModel 0 cc ic (ds_chunks s') (fm_trailing f) (ds_groups s')), ds_warns s', st)).
  { rewrite Hin. unfold decode_dcomp. rewrite decode_header by assumption. unfold after_header. fold (warn0 rsv). rewrite L. eauto. }
  destruct Hd as [st' Hd]. unfold decompress. rewrite Hd.
  destruct (run_dcomp _ _ _ _ Hr) as (E1 & E2 & _). cbn [ds_chunks ds_warns] in E1, E2. rewrite E1, E2.
  unfold encode. cbn [app fm_chunks fm_version fm_classCount fm_instCount fm_trailing]. rewrite enc_plain. cbn [obind].
  assert (Hf' : Forall2 (good_frame lz) (map plain rcs) (map (fun rc => RbxlModel.Raw (raw_sig rc) false (raw_payload rc)) rcs)).
  { clear -Hf Hl. induction Hf as [|? ? ? ? [Hg _] ? ?]; constructor; auto. eapply plain_good; eauto. }
  pose proof (decode_frames lz spare noXML cc ic (repeat x00 8) _ _ (fm_trailing f) _ _ H1 H2 eq_refl Hf' (steps_plain _ _ _ _ _ _ Hs)) as E.
  eexists _, _. split; [reflexivity|]. rewrite header_eq in E. rewrite <- !app_assoc in E. rewrite Ef.
  cbn [fm_classCount fm_instCount fm_chunks fm_trailing fm_groups]. rewrite Hg0, <- (grow_all_uncompress cs). change (le64 0) with (repeat x00 8). rewrite E. rewrite count_uncompress.
  rewrite filter_app. unfold warn0 at 2. destruct (bytes_eqb rsv (repeat x00 8)); reflexivity.
Qed.
(** Decompressing again changes nothing. *)
Theorem C20_decompress_idempotent : forall lz noXML input ws b, fills lz ->
  decompress lz noXML input = OK (ws, b) -> decompress lz noXML b = OK ([], b).
Proof.
  intros lz noXML input ws b Hl H. unfold decompress in H.
  destruct (decode_dcomp lz noXML input) as [[[[x|f] ws1] st]|[[e ws1] st]| |] eqn:E; try discriminate.
  destruct (decode_dcomp_inv _ _ _ _ _ _ E) as (cc & ic & rsv & fs & rcs & s & s' & Hin & H1 & H2 & H3 & Hf & Hw & Hr & Ef).
  rewrite Ef in H. unfold encode in H. cbn [fm_chunks fm_version fm_classCount fm_instCount fm_trailing] in H.
  rewrite enc_plain in H. cbn [obind] in H. apply OK_pair in H. destruct H as [_ Hbb].
  set (rcs' := map (fun rc => RbxlModel.Raw (raw_sig rc) false (raw_payload rc)) rcs).
  assert (Hf' : Forall2 (good_frame lz) (map plain rcs) rcs').
  { unfold rcs'. clear -Hf Hl. induction Hf as [|? ? ? ? [Hg _] ? ?]; constructor; auto. eapply plain_good; eauto. }
  destruct (run_dcomp_iff rcs 0 0 s (DState [] [] [] (Stats false 0 cc ic 0 [])) s' Hr) as [s2 Hr2]. fold rcs' in Hr2.
  assert (Hb : b = header 0 cc ic (repeat x00 8) ++ flat_map frame_bytes (map plain rcs) ++ fm_trailing f).
  { rewrite Hbb, header_eq, <- !app_assoc. reflexivity. }
  unfold decompress.
  assert (Hd : exists st, decode_dcomp lz noXML b = OK (DModel (FModel 0 cc ic (ds_chunks s2) (fm_trailing f) (ds_groups s2)), ds_warns s2, st)).
  { rewrite Hb. unfold decode_dcomp. rewrite decode_header by auto. unfold after_header. rewrite bytes_eqb_refl.
    rewrite (loop_frames lz _ (map plain rcs) rcs' Hf' 0 _ s2 (fm_trailing f)); [eauto|exact Hr2|eapply flat_frames_fuel; exact Hf']. }
  destruct Hd as [st2 ->].
  destruct (run_dcomp _ _ _ _ Hr2) as (E1 & E2 & _). cbn [ds_chunks ds_warns] in E1, E2. rewrite E1, E2.
  unfold encode. cbn [app fm_chunks fm_version fm_classCount fm_instCount fm_trailing]. rewrite enc_plain. cbn [obind].
  rewrite Hbb. unfold rcs'. rewrite map_map. reflexivity.
Qed.
Definition plain_example : bytes :=
  match decompress toy_lz false bytes_example with OK (_, b) => b | _ => [] end.
Example C20_witness :
  fills toy_lz /\
  is_ok (decode toy_lz (fun _ => 0) false bytes_example) = true /\
  decompress toy_lz false bytes_example = OK ([], plain_example) /\ plain_example <> bytes_example /\
  decompress toy_lz false plain_example = OK ([], plain_example).
Proof.
  split; [exact (proj2 toy_lossless)|]. split; [vm_compute; reflexivity|]. split; [vm_compute; reflexivity|].
  split; [vm_compute; discriminate|vm_compute; reflexivity].
Qed.

(** C43: statistics describe the decoded model: header counts, the signature
    of every chunk in order, and the number of chunks that did not fail. *)
Lemma count_all_spec cs : forall st, let st' := count_all st cs in
  st_xml st' = st_xml st /\ st_version st' = st_version st /\ st_classCount st' = st_classCount st /\
  st_instCount st' = st_instCount st /\ st_chunkTypes st' = st_chunkTypes st ++ map (fun c => psig (ch_payload c)) cs /\
  st_chunks st' = st_chunks st + length (filter (fun c => negb (is_errored c)) cs).
Proof.
  induction cs as [|c cs IH]; intros st st'; cbn.
  - rewrite app_nil_r, Nat.add_0_r. auto 6.
  - unfold st', count_all. cbn [fold_left]. fold (count_all (count_stats st (ch_payload c) (psig (ch_payload c))) cs).
    destruct (IH (count_stats st (ch_payload c) (psig (ch_payload c)))) as (H1 & H2 & H3 & H4 & H5 & H6).
    rewrite H1, H2, H3, H4, H5, H6. unfold count_stats, is_errored, is_errp.
    destruct (ch_payload c); cbn; rewrite <- app_assoc; repeat split; lia.
Qed.
Theorem C43_stats : forall lz spare noXML input f ws st,
  decode lz spare noXML input = OK (DModel f, ws, st) ->
  st_xml st = false /\ st_version st = fm_version f /\ st_classCount st = fm_classCount f /\
  st_instCount st = fm_instCount f /\ st_chunkTypes st = map (fun c => psig (ch_payload c)) (fm_chunks f) /\
  st_chunks st = length (filter (fun c => negb (is_errored c)) (fm_chunks f)).
Proof.
  intros lz spare noXML input f ws st H.
  destruct (decode_model_inv _ _ _ _ _ _ _ H) as (cc & ic & rsv & fs & rcs & cs & w & g & Hg0 & Hin & H1 & H2 & H3 & Hf & Hs & -> & Ef & ->).
  rewrite Ef. exact (count_all_spec cs (Stats false 0 cc ic 0 [])).
Qed.
(** So the documented "total number of chunks" is wrong for files with a bad chunk. *)
Theorem C43_total_chunks_refuted : exists lz spare input f ws st,
  lossless lz /\ decode lz spare false input = OK (DModel f, ws, st) /\ st_chunks st <> length (fm_chunks f).
Proof.
  exists toy_lz, (fun _ => 0), broken_file. do 3 eexists. split; [exact toy_lossless|]. split; [vm_compute; reflexivity|].
  vm_compute. discriminate.
Qed.
Example C43_witness : exists f ws st, decode toy_lz (fun _ => 0) false bytes_example = OK (DModel f, ws, st) /\ st_chunks st = 5.
Proof. vm_compute. repeat eexists. Qed.

Print Assumptions C14_payload_roundtrip.
Print Assumptions C15_framing_roundtrip.
Print Assumptions C15_uncompressed_total.
Print Assumptions C16_file_roundtrip.
Print Assumptions C16_encode_total.
Print Assumptions C17_decode_total.
Print Assumptions C17_every_byte_accounted.
Print Assumptions C18_bad_header_rejected.
Print Assumptions C19_errored_chunk_kept.
Print Assumptions C19_errored_chunk_contained.
Print Assumptions C20_decompress_layout.
Print Assumptions C20_decompress_succeeds.
Print Assumptions C20_decompress_decodes_same.
Print Assumptions C20_decompress_idempotent.
Print Assumptions C43_stats.
Print Assumptions C43_total_chunks_refuted.
