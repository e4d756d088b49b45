(** RbxlFileProofs.v - lemmas about the file container. *)
From Verif Require Import Base RbxlValues RbxlArrays RbxlModel RbxlFile
  SpecValues SpecArrays SpecWire SpecModel SpecFile
  RbxlWordProofs RbxlValuesProofs TransposeProofs RbxlArraysProofs PropArrays PropWire RbxlModelProofs.

Lemma group_len_set g id v k :
  group_len (group_set g id v) k = if (id =? k)%Z then Some (length (snd v)) else group_len g k.
Proof. unfold group_len, group_set. cbn. destruct v as [i ids]. cbn. now destruct (id =? k)%Z. Qed.

(** ** The header *)
Lemma header_eq v cc ic rsv :
  header v cc ic rsv = robloxSig ++ binaryMarker ++ binaryHeader ++ le16 v ++ le32 cc ++ le32 ic ++ rsv.
Proof.
  unfold header, magic, emit, le16, le32. rewrite !emit_LE. cbn [flat_map].
  change (emit1 (SpecWire.Raw rsv)) with rsv. rewrite app_nil_r, <- !app_assoc. reflexivity.
Qed.

Definition after_header lz step (v cc ic : N) (rsv b : bytes) : dres :=
  let ws := if bytes_eqb rsv (repeat x00 8) then [] else [WReserve 24 rsv] in
  match chunk_loop lz step (S (length b)) 0 b (DState [] ws [] (Stats false v cc ic 0 [])) with
  | OK (s, rest) => OK (DModel (FModel v cc ic (ds_chunks s) rest (ds_groups s)), ds_warns s, ds_stats s)
  | Err (e, s) => Err (e, ds_warns s, ds_stats s)
  | Panic => Panic
  | Hang => Hang
  end.

Lemma decode_header lz step noXML cc ic rsv b : f32 cc -> f32 ic -> length rsv = 8 ->
  decode_body lz step noXML (header 0 cc ic rsv ++ b) = after_header lz step 0 cc ic rsv b.
Proof.
  intros H1 H2 H3. rewrite header_eq. unfold decode_body.
  set (inp := (robloxSig ++ binaryMarker ++ binaryHeader ++ le16 0 ++ le32 cc ++ le32 ic ++ rsv) ++ b).
  assert (Hl : length inp = 32 + length b).
  { unfold inp, le16, le32. rewrite !app_length, !le_bytes_length, H3. reflexivity. }
  replace inp with ((robloxSig ++ binaryMarker) ++ (binaryHeader ++ (le16 0 ++ (le32 cc ++ (le32 ic ++ (rsv ++ b))))))
    by (unfold inp; now rewrite <- !app_assoc).
  rewrite rBytes_app by reflexivity.
  change (firstn 7 (robloxSig ++ binaryMarker)) with robloxSig.
  change (skipn 7 (robloxSig ++ binaryMarker)) with binaryMarker.
  rewrite !bytes_eqb_refl. cbn [negb].
  rewrite rBytes_app by reflexivity. rewrite bytes_eqb_refl. cbn [negb].
  unfold le16. rewrite rNum_app by reflexivity. cbn [N.eqb negb].
  rewrite rNum4_app by exact H1. rewrite rNum4_app by exact H2.
  rewrite rBytes_app by (rewrite H3; reflexivity).
  unfold after_header.
  replace (length ((robloxSig ++ binaryMarker) ++ binaryHeader ++ le_bytes 2 0 ++ le32 cc ++ le32 ic ++ rsv ++ b) - length b - 8)
    with 24; [reflexivity|].
  unfold le32. rewrite !app_length, !le_bytes_length, H3. change (length robloxSig) with 7.
  change (length binaryMarker) with 1. change (length binaryHeader) with 6. lia.
Qed.

Inductive header_case : bytes -> Prop :=
| hc_good cc ic rsv b : f32 cc -> f32 ic -> length rsv = 8 -> header_case (header 0 cc ic rsv ++ b).

(** All the ways decoding can start. *)
Lemma decode_cases lz step noXML input :
  (exists cc ic rsv b, input = header 0 cc ic rsv ++ b /\ f32 cc /\ f32 ic /\ length rsv = 8 /\
     decode_body lz step noXML input = after_header lz step 0 cc ic rsv b) \/
  (exists c rest, c <> x21 /\ input = robloxSig ++ c :: rest /\
     decode_body lz step noXML input =
       if noXML then Err (EInvalidSig, [], Stats true 0 0 0 0 []) else OK (DXml input, [], Stats true 0 0 0 0 [])) \/
  (exists e st, decode_body lz step noXML input = Err (e, [], st) /\
     (forall c rest, input <> robloxSig ++ c :: rest \/ c = x21) /\
     (forall cc ic rsv b, length rsv = 8 -> input <> header 0 cc ic rsv ++ b)).
Proof.
  assert (Hdr : (exists cc ic rsv b, input = header 0 cc ic rsv ++ b /\ f32 cc /\ f32 ic /\ length rsv = 8) \/
     (forall cc ic rsv b, length rsv = 8 -> input <> header 0 cc ic rsv ++ b)).
  { destruct (bytes_eq_dec (firstn 16 input) (robloxSig ++ binaryMarker ++ binaryHeader ++ le16 0)) as [E|E].
    - destruct (Nat.le_gt_cases 32 (length input)) as [L|L].
      + left. set (r1 := skipn 16 input). set (r2 := skipn 4 r1). set (r3 := skipn 4 r2).
        assert (L1 : length r1 = length input - 16) by apply skipn_length.
        assert (L2 : length r2 = length r1 - 4) by apply skipn_length.
        assert (L3 : length r3 = length r2 - 4) by apply skipn_length.
        exists (le_N (firstn 4 r1)), (le_N (firstn 4 r2)), (firstn 8 r3), (skipn 8 r3).
        assert (F : forall r, 4 <= length r -> le32 (le_N (firstn 4 r)) = firstn 4 r).
        { intros r Hr. unfold le32. rewrite <- (firstn_length_le r Hr) at 1. apply le_bytes_le_N. }
        assert (G : forall r, 4 <= length r -> f32 (le_N (firstn 4 r))).
        { intros r Hr. pose proof (le_N_lt (firstn 4 r)) as Q. rewrite firstn_length_le in Q by exact Hr. exact Q. }
        split; [|split; [apply G; lia|split; [apply G; lia|apply firstn_length_le; lia]]].
        rewrite header_eq. rewrite !F by lia.
        transitivity (firstn 16 input ++ r1); [symmetry; apply firstn_skipn|]. rewrite E, <- !app_assoc.
        do 4 f_equal. rewrite (firstn_skipn 8 r3). unfold r3. rewrite (firstn_skipn 4 r2). unfold r2.
        now rewrite (firstn_skipn 4 r1).
      + right. intros cc ic rsv b Hr ->. rewrite header_eq in L. unfold le16, le32 in L.
        rewrite !app_length, !le_bytes_length, Hr in L. cbn [robloxSig binaryMarker binaryHeader length str String.list_byte_of_string] in L.
        change (length robloxSig) with 7 in L. change (length binaryMarker) with 1 in L. change (length binaryHeader) with 6 in L. lia.
    - right. intros cc ic rsv b Hr ->. apply E. rewrite header_eq. reflexivity. }
  destruct Hdr as [(cc & ic & rsv & b & -> & H1 & H2 & H3)|Hno].
  { left. exists cc, ic, rsv, b. repeat split; auto. now apply decode_header. }
  right.
  assert (Hnil : forall c rest, length input < 8 -> input <> robloxSig ++ c :: rest).
  { intros c rest L ->. rewrite app_length in L. change (length robloxSig) with 7 in L. cbn in L. lia. }
  unfold decode_body.
  assert (Hlen8 : rBytes 8 input = Err ((match input with [] => EEOF | _ => EUnexpectedEOF end), []) /\ length input < 8 \/
    exists sg b, rBytes 8 input = OK (sg, b) /\ input = sg ++ b /\ length sg = 8).
  { unfold rBytes. destruct (N.of_nat (length input) <? 8)%N eqn:E; [left|right].
    - split; [reflexivity|]. apply N.ltb_lt in E. lia.
    - eexists _, _. split; [reflexivity|]. split; [symmetry; apply firstn_skipn|].
      apply N.ltb_ge in E. apply firstn_length_le. change (N.to_nat 8) with 8. lia. }
  destruct Hlen8 as [[-> L]|(sg & b & -> & Hin & Hsg)].
  { right. eexists _, _. split; [reflexivity|]. split; [|exact Hno]. intros; left; now apply Hnil. }
  destruct (bytes_eqb (firstn 7 sg) robloxSig) eqn:E1; cbn [negb].
  2:{ right. eexists _, _. split; [reflexivity|]. split; [|exact Hno]. intros c rest; left. intros Hc.
      apply bytes_eqb_neq in E1. apply E1. rewrite Hin in Hc.
      assert (Hf : firstn 7 (sg ++ b) = firstn 7 (robloxSig ++ c :: rest)) by now rewrite Hc.
      rewrite firstn_app in Hf. rewrite Hsg in Hf. cbn [Nat.sub firstn] in Hf. rewrite app_nil_r in Hf. exact Hf. }
  apply bytes_eqb_eq in E1.
  assert (Hsg2 : exists c, sg = robloxSig ++ [c]).
  { rewrite <- (firstn_skipn 7 sg), E1. pose proof (skipn_length 7 sg) as Q. rewrite Hsg in Q.
    destruct (skipn 7 sg) as [|c [|]]; cbn in Q; try lia. now exists c. }
  destruct Hsg2 as [c ->]. change (skipn 7 (robloxSig ++ [c])) with [c].
  destruct (bytes_eqb [c] binaryMarker) eqn:E2; cbn [negb].
  2:{ left. exists c, b. split; [intros ->; discriminate E2|]. split; [rewrite Hin, <- app_assoc; reflexivity|].
      rewrite Hin. now destruct noXML. }
  apply bytes_eqb_eq in E2. injection E2 as ->. right.
  assert (Hx : forall c rest, input <> robloxSig ++ c :: rest \/ c = x21).
  { intros c rest. destruct (byte_eq_dec c x21) as [->|N]; [now right|left]. rewrite Hin, <- app_assoc.
    intros Hq. apply app_inv_head in Hq. cbn in Hq. congruence. }
  destruct (rBytes_case 6 b) as [[e ->]|(h & b2 & -> & -> & H6)]; [eexists _, _; split; [reflexivity|]; auto|].
  destruct (bytes_eqb h binaryHeader) eqn:E3; cbn [negb]; [|eexists _, _; split; [reflexivity|]; auto].
  apply bytes_eqb_eq in E3. subst h.
  destruct (rNum_case 2 b2) as [[e ->]|(v & b3 & -> & -> & Hv)]; [eexists _, _; split; [reflexivity|]; auto|].
  destruct (v =? 0)%N eqn:E4; cbn [negb]; [|eexists _, _; split; [reflexivity|]; auto].
  apply N.eqb_eq in E4. subst v.
  destruct (rNum_case 4 b3) as [[e ->]|(cc & b4 & -> & -> & Hc)]; [eexists _, _; split; [reflexivity|]; auto|].
  destruct (rNum_case 4 b4) as [[e ->]|(ic & b5 & -> & -> & Hi)]; [eexists _, _; split; [reflexivity|]; auto|].
  destruct (rBytes_case 8 b5) as [[e ->]|(rsv & b6 & -> & -> & Hr)]; [eexists _, _; split; [reflexivity|]; auto|].
  exfalso. apply (Hno cc ic rsv b6); [lia|]. rewrite Hin, header_eq, <- !app_assoc. reflexivity.
Qed.

(** ** The chunk loop as a fold over frames *)
Fixpoint run (step : nat -> rawchunk -> dstate -> res (dstate * bool)) (i : nat) (rcs : list rawchunk) (s : dstate)
  : res dstate :=
  match rcs with
  | [] => Err EEOF
  | rc :: rcs =>
      match step i rc s with
      | OK (s, true) => match rcs with [] => OK s | _ => Err EEOF end
      | OK (s, false) => run step (S i) rcs s
      | Err e => Err e
      | Panic => Panic
      | Hang => Hang
      end
  end.
Definition good_frame lz f rc := frame_chunk lz f rc /\ (fr_clen f + 4 < 2 ^ 32)%N.

(** Running the loop over the bytes of frames. *)
Lemma loop_frames lz step fs rcs : Forall2 (good_frame lz) fs rcs ->
  forall i s s' rest fuel, run step i rcs s = OK s' -> length fs <= fuel ->
  chunk_loop lz step fuel i (flat_map frame_bytes fs ++ rest) s = OK (s', rest).
Proof.
  induction 1 as [|f rc fs rcs [Hf1 Hf2] H IH]; intros i s s' rest fuel Hr Hfuel; [discriminate|].
  destruct fuel as [|fuel]; [cbn in Hfuel; lia|].
  cbn [flat_map chunk_loop]. rewrite <- app_assoc. rewrite (raw_read_frame lz f rc) by assumption.
  cbn [run] in Hr. destruct (step i rc s) as [[s1 [|]]|e| |] eqn:E; try discriminate.
  - destruct rcs; [|discriminate]. inversion H; subst. injection Hr as <-. reflexivity.
  - apply IH; [exact Hr|cbn in Hfuel; lia].
Qed.
(** And conversely. *)
Lemma loop_inv lz step : forall fuel i b s,
  length b < fuel ->
  (forall i rc s, step i rc s <> Hang) ->
  match chunk_loop lz step fuel i b s with
  | OK (s', rest) => exists fs rcs, b = flat_map frame_bytes fs ++ rest /\ Forall2 (good_frame lz) fs rcs /\
                       run step i rcs s = OK s'
  | Err _ => True
  | Panic => (exists pre sg cl r, b = pre ++ le32 sg ++ le32 cl ++ r /\ f32 cl /\ (2 ^ 32 <= cl + 4)%N) \/
             (exists i rc s, step i rc s = Panic)
  | Hang => False
  end.
Proof.
  induction fuel as [|fuel IH]; intros i b s Hl Hh; [lia|]. cbn [chunk_loop].
  destruct (raw_read_case lz b) as [(e & r & ->)|[(f & rc & r & -> & -> & Hf1 & Hf2)|(-> & sg & cl & r & -> & Hc)]].
  - exact I.
  - destruct (step i rc s) as [[s1 [|]]|e| |] eqn:E.
    + exists [f], [rc]. cbn [flat_map run]. rewrite app_nil_r, E. repeat split; auto.
      constructor; [split; assumption|constructor].
    + assert (Hr : length r < fuel).
      { rewrite app_length, frame_length in Hl. lia. }
      specialize (IH (S i) r s1 Hr Hh). destruct (chunk_loop lz step fuel (S i) r s1) as [[s2 rest]|e| |]; try exact I; try exact IH.
      * destruct IH as (fs & rcs & -> & H2 & H3). exists (f :: fs), (rc :: rcs). cbn [flat_map run]. rewrite E, <- app_assoc.
        repeat split; auto. constructor; [split; assumption|exact H2].
      * destruct IH as [(pre & sg & cl & r' & -> & Hc)|Hp]; [left|now right].
        exists (frame_bytes f ++ pre), sg, cl, r'. now rewrite <- app_assoc.
    + exact I.
    + right; eauto.
    + now apply (Hh i rc s).
  - left. exists [], sg, cl, r. auto.
Qed.

Lemma flat_frames_fuel lz fs rcs rest : Forall2 (good_frame lz) fs rcs ->
  length fs <= S (length (flat_map frame_bytes fs ++ rest)).
Proof.
  intros H. rewrite app_length. enough (length fs <= length (flat_map frame_bytes fs)) by lia.
  clear H. induction fs as [|f fs IH]; [cbn; lia|]. cbn [flat_map length]. rewrite app_length, frame_length. lia.
Qed.

(** ** Payload decoding never hangs, and panics only on CFrame arrays *)
Lemma refArray_cases b n : (exists e, refArrayFromBytes b n = Err e) \/ (exists l, refArrayFromBytes b n = OK l).
Proof.
  unfold refArrayFromBytes.
  destruct (arr_from1_total 0 tReference n b) as [[e ->]|[(vs & m & -> & _)|(_ & E & _)]]; try discriminate; cbn [obind]; eauto.
Qed.
(** [safe o]: an error or a result. *)
Definition safe {E A} (o : outcome E A) : Prop := match o with OK _ | Err _ => True | _ => False end.
Lemma safe_bind {E A B} (o : outcome E A) (f : A -> outcome E B) : safe o -> (forall a, safe (f a)) -> safe (obind o f).
Proof. destruct o; cbn; auto. Qed.
Lemma safe_rBytes n b : safe (rBytes n b).
Proof. unfold rBytes. now destruct (_ <? _)%N. Qed.
Lemma safe_rNum k b : safe (rNum k b).
Proof. apply safe_bind; [apply safe_rBytes|]. now intros [w r]. Qed.
Lemma safe_rI32 b : safe (rI32 b).
Proof. apply safe_bind; [apply safe_rNum|]. now intros [w r]. Qed.
Lemma safe_readString b : safe (readString b).
Proof. apply safe_bind; [apply safe_rNum|]. intros [w r]. apply safe_rBytes. Qed.
Lemma safe_read_ids n b : safe (read_ids n b).
Proof.
  unfold read_ids. destruct (n =? 0)%N; [exact I|]. apply safe_bind; [apply safe_rBytes|]. intros [raw r].
  destruct (refArray_cases raw (N.to_nat n)) as [[e ->]|[l ->]]; exact I.
Qed.
Lemma safe_read_pairs n : forall b, safe (read_pairs n b).
Proof.
  induction n as [|n IH]; intros b; [exact I|]. cbn [read_pairs].
  apply safe_bind; [apply safe_readString|]. intros [k b1].
  apply safe_bind; [apply safe_readString|]. intros [v b2].
  apply safe_bind; [apply IH|]. now intros [r b3].
Qed.
Lemma safe_read_shared n : forall b, safe (read_shared n b).
Proof.
  induction n as [|n IH]; intros b; [exact I|]. cbn [read_shared].
  apply safe_bind; [apply safe_rBytes|]. intros [k b1].
  apply safe_bind; [apply safe_readString|]. intros [v b2].
  apply safe_bind; [apply IH|]. now intros [r b3].
Qed.
Ltac safe_step := first [exact I | apply safe_bind; [first [apply safe_rBytes | apply safe_rNum | apply safe_rI32 | apply safe_readString | apply safe_read_ids | apply safe_read_pairs | apply safe_read_shared] | intros [? ?]]].
Lemma safe_read_prop spare g b :
  safe (read_prop spare g b) \/
  (read_prop spare g b = Panic /\ exists n raw, cframe_positions_missing (spare (length raw)) n raw).
Proof.
  unfold read_prop. pose proof (safe_rI32 b) as S1. destruct (rI32 b) as [[id b1]|[e r]| |]; try (left; exact S1); cbn [obind].
  destruct (g id) as [n|]; [|left; exact I].
  pose proof (safe_readString b1) as S2. destruct (readString b1) as [[name raw]|[e r]| |]; try (left; exact S2); cbn [obind].
  destruct raw as [|t raw']; [left; exact I|]. set (raw := t :: raw').
  destruct (typeArrayFromBytes_total (spare (length raw)) n raw) as [[e ->]|[(a & m & -> & _)|[-> Hp]]]; try (left; exact I).
  right. split; [reflexivity|]. exists n, raw. exact Hp.
Qed.
Lemma read_payload_safe spare g sg b :
  safe (read_payload spare g sg b) \/
  (read_payload spare g sg b = Panic /\ sg = sigPROP /\ exists n raw, cframe_positions_missing (spare (length raw)) n raw).
Proof.
  unfold read_payload.
  destruct (sg =? sigMETA)%N; [left; unfold read_meta; repeat safe_step|].
  destruct (sg =? sigSSTR)%N; [left; unfold read_sstr; repeat safe_step|].
  destruct (sg =? sigINST)%N.
  { left. unfold read_inst. do 5 safe_step. apply safe_bind; [|now intros [? ?]].
    destruct (negb _); [apply safe_rBytes|exact I]. }
  destruct (N.eqb_spec sg sigPROP).
  { destruct (safe_read_prop spare g b) as [H|[H1 H2]]; [now left|right; auto]. }
  destruct (sg =? sigPRNT)%N; [left; unfold read_prnt; repeat safe_step|].
  destruct (sg =? sigEND)%N; left; exact I.
Qed.

Lemma bind_OK {E A B} (o : outcome E A) (f : A -> outcome E B) y : obind o f = OK y -> exists a, o = OK a /\ f a = OK y.
Proof. destruct o; cbn; try discriminate. eauto. Qed.
Ltac inv_bind H := let x := fresh "x" in let r := fresh "r" in let E := fresh "E" in
  apply bind_OK in H; destruct H as [[x r] [E H]].

(** A decoded payload has the signature of its chunk; END is decoded as END. *)
Lemma read_payload_sig spare g sg b p r : read_payload spare g sg b = OK (p, r) ->
  psig p = sg /\ (match p with PErrored _ _ _ _ => False | _ => True end) /\
  ((sg = sigEND /\ p = PEnd b) \/ (sg <> sigEND /\ forall c, p <> PEnd c)).
Proof.
  unfold read_payload.
  destruct (N.eqb_spec sg sigMETA) as [->|N1].
  { unfold read_meta. intros H. repeat inv_bind H. injection H as <- _. repeat split. right; split; discriminate. }
  destruct (N.eqb_spec sg sigSSTR) as [->|N2].
  { unfold read_sstr. intros H. repeat inv_bind H. injection H as <- _. repeat split. right; split; discriminate. }
  destruct (N.eqb_spec sg sigINST) as [->|N3].
  { unfold read_inst. intros H. repeat inv_bind H. injection H as <- _. repeat split. right; split; discriminate. }
  destruct (N.eqb_spec sg sigPROP) as [->|N4].
  { unfold read_prop. intros H. inv_bind H. destruct (g x) as [n|]; [|discriminate]. inv_bind H.
    destruct r1 as [|t raw]; [injection H as <- _; repeat split; right; split; discriminate|].
    destruct (typeArrayFromBytes _ _ _) as [[a m]|e| |]; try discriminate.
    injection H as <- _; repeat split; right; split; discriminate. }
  destruct (N.eqb_spec sg sigPRNT) as [->|N5].
  { unfold read_prnt. intros H. repeat inv_bind H. injection H as <- _. repeat split. right; split; discriminate. }
  destruct (N.eqb_spec sg sigEND) as [->|N6].
  { intros [= <- _]. repeat split. left; split; reflexivity. }
  intros [= <- _]. repeat split. right. split; [exact N6|discriminate].
Qed.
Lemma read_prop_ext spare g g' b : (forall k, g k = g' k) -> read_prop spare g b = read_prop spare g' b.
Proof. intros H. unfold read_prop. destruct (rI32 b) as [[id b1]|[e r]| |]; try reflexivity. cbn [obind]. now rewrite H. Qed.
Lemma read_payload_ext spare g g' sg b : (forall k, g k = g' k) -> read_payload spare g sg b = read_payload spare g' sg b.
Proof. intros H. unfold read_payload. now rewrite (read_prop_ext spare g g' b H). Qed.
Lemma wf_payload_ext g g' p : (forall k, g k = g' k) -> wf_payload g p -> wf_payload g' p.
Proof. intros H. destruct p; cbn [wf_payload]; auto. destruct props as [a|]; rewrite <- H; auto. Qed.

(** ** Steps *)
Definition is_wchunk (w : warning) : bool := match w with WChunk _ _ _ => true | _ => false end.
Definition chunk_warnings (i : nat) (c : chunk) : list warning :=
  match ch_payload c with PErrored sg _ e _ => [WChunk i sg e] | _ => [] end.

(** What one iteration appends. *)
Definition step_out spare (g : Z -> option nat) (i : nat) (rc : rawchunk) : option (payload * list warning) :=
  match read_payload spare g (raw_sig rc) (raw_payload rc) with
  | OK (p, _) =>
      Some (p, match p with
               | PUnknown _ _ => [WUnknownSig i (raw_sig rc)]
               | PEnd c => (if raw_compressed rc then [WEndCompressed] else []) ++
                           (if bytes_eqb c endContent then [] else [WEndContent])
               | _ => []
               end)
  | Err (e, rest) =>
      Some (PErrored (raw_sig rc) (length (raw_payload rc) - length rest) e (raw_payload rc),
            [WChunk i (raw_sig rc) e])
  | _ => None
  end.
Definition is_endp (p : payload) : bool := match p with PEnd _ => true | _ => false end.
Definition is_errp (p : payload) : bool := match p with PErrored _ _ _ _ => true | _ => false end.
Definition count_stats (st : stats) (p : payload) (sg : N) : stats :=
  if is_errp p then st_sig st sg else st_chunk (st_sig st sg).

Lemma dec_step_out spare i rc s :
  dec_step spare i rc s =
  match step_out spare (group_len (ds_groups s)) i rc with
  | Some (p, w) => OK (DState (ds_chunks s ++ [Chunk (raw_compressed rc) p]) (ds_warns s ++ w)
                          (grow (ds_groups s) i p) (count_stats (ds_stats s) p (raw_sig rc)), is_endp p)
  | None => Panic
  end.
Proof.
  unfold dec_step, step_out.
  destruct (read_payload_safe spare (group_len (ds_groups s)) (raw_sig rc) (raw_payload rc)) as [H|[-> _]]; [|reflexivity].
  destruct (read_payload spare (group_len (ds_groups s)) (raw_sig rc) (raw_payload rc)) as [[p r]|[e r]| |] eqn:E; try destruct H.
  - destruct (read_payload_sig _ _ _ _ _ _ E) as (_ & Hp & _). destruct p; try reflexivity. destruct Hp.
  - reflexivity.
Qed.
Lemma step_out_ext spare g g' i rc : (forall k, g k = g' k) -> step_out spare g i rc = step_out spare g' i rc.
Proof. intros H. unfold step_out. now rewrite (read_payload_ext spare g g' _ _ H). Qed.
Lemma grow_len g i p k : group_len (grow g i p) k = extend (group_len g) p k.
Proof. destruct p; try reflexivity. cbn [grow extend]. rewrite group_len_set. reflexivity. Qed.
Lemma extend_ext g g' p : (forall k, g k = g' k) -> forall k, extend g p k = extend g' p k.
Proof. intros H k. destruct p; cbn [extend]; auto. now rewrite H. Qed.
Lemma step_out_spec spare g i rc p w : step_out spare g i rc = Some (p, w) ->
  psig p = raw_sig rc /\
  (is_endp p = true <-> raw_sig rc = sigEND) /\
  filter is_wchunk w = chunk_warnings i (Chunk (raw_compressed rc) p) /\
  (is_errp p = true -> exists off e, p = PErrored (raw_sig rc) off e (raw_payload rc) /\
      off <= length (raw_payload rc) /\ w = [WChunk i (raw_sig rc) e]).
Proof.
  unfold step_out.
  destruct (read_payload spare g (raw_sig rc) (raw_payload rc)) as [[p0 r]|[e r]| |] eqn:E; try discriminate.
  - intros [= <- <-]. destruct (read_payload_sig _ _ _ _ _ _ E) as (H1 & H2 & H3). split; [exact H1|].
    split.
    { destruct H3 as [[Hs ->]|[Hs Hn]].
      - cbn. tauto.
      - destruct p0; cbn; split; try discriminate; try congruence. }
    split; [|destruct p0; try discriminate; destruct H2].
    destruct p0; try reflexivity; [|destruct H2]. cbn [chunk_warnings ch_payload].
    destruct (raw_compressed rc), (bytes_eqb content endContent); reflexivity.
  - intros [= <- <-]. split; [reflexivity|]. split.
    { cbn. split; [discriminate|]. intros Hs. rewrite Hs in E. discriminate E. }
    split; [reflexivity|]. intros _. eexists _, _. split; [reflexivity|]. split; [lia|reflexivity].
Qed.

(** Run of the decoder, as appended chunks and warnings. *)
Inductive steps spare : (Z -> option nat) -> nat -> list rawchunk -> list chunk -> list warning -> Prop :=
| steps_end g i rc p w :
    step_out spare g i rc = Some (p, w) -> is_endp p = true ->
    steps spare g i [rc] [Chunk (raw_compressed rc) p] w
| steps_cons g i rc rcs p w cs ws :
    step_out spare g i rc = Some (p, w) -> is_endp p = false ->
    steps spare (extend g p) (S i) rcs cs ws ->
    steps spare g i (rc :: rcs) (Chunk (raw_compressed rc) p :: cs) (w ++ ws).

Lemma steps_ext spare g i rcs cs ws : steps spare g i rcs cs ws ->
  forall g', (forall k, g k = g' k) -> steps spare g' i rcs cs ws.
Proof.
  induction 1 as [g i rc p w H1 H2|g i rc rcs p w cs ws H1 H2 H3 IH]; intros g' Hg.
  - constructor; [|exact H2]. now rewrite <- (step_out_ext spare g g' i rc Hg).
  - econstructor; [rewrite <- (step_out_ext spare g g' i rc Hg); exact H1|exact H2|].
    apply IH. now apply extend_ext.
Qed.
Definition count_all (st : stats) (cs : list chunk) : stats :=
  fold_left (fun st c => count_stats st (ch_payload c) (psig (ch_payload c))) cs st.

Lemma run_steps spare rcs : forall i s s', run (dec_step spare) i rcs s = OK s' ->
  exists cs ws, steps spare (group_len (ds_groups s)) i rcs cs ws /\
    ds_chunks s' = ds_chunks s ++ cs /\ ds_warns s' = ds_warns s ++ ws /\
    ds_stats s' = count_all (ds_stats s) cs /\ ds_groups s' = grow_all (ds_groups s) i cs.
Proof.
  induction rcs as [|rc rcs IH]; intros i s s' H; [discriminate|]. cbn [run] in H.
  rewrite dec_step_out in H.
  destruct (step_out spare (group_len (ds_groups s)) i rc) as [[p w]|] eqn:E; [|discriminate].
  destruct (step_out_spec _ _ _ _ _ _ E) as (Hsig & _).
  destruct (is_endp p) eqn:Ee.
  - destruct rcs; [|discriminate]. injection H as <-.
    exists [Chunk (raw_compressed rc) p], w. split; [now constructor|]. split; [reflexivity|].
    split; [reflexivity|]. unfold count_all. cbn [fold_left ch_payload ds_stats]. rewrite Hsig. now split.
  - destruct (IH _ _ _ H) as (cs & ws & H1 & H2 & H3 & H4 & H5). cbn [ds_chunks ds_warns ds_stats ds_groups] in *.
    exists (Chunk (raw_compressed rc) p :: cs), (w ++ ws). rewrite <- !app_assoc in *. repeat split; auto.
    + econstructor; [exact E|exact Ee|]. eapply steps_ext; [exact H1|]. intros k. apply grow_len.
    + rewrite H4. cbn [count_all fold_left ch_payload]. now rewrite Hsig.
Qed.
Lemma steps_run spare g i rcs cs ws : steps spare g i rcs cs ws ->
  forall s, (forall k, group_len (ds_groups s) k = g k) ->
  exists s', run (dec_step spare) i rcs s = OK s' /\
    ds_chunks s' = ds_chunks s ++ cs /\ ds_warns s' = ds_warns s ++ ws /\
    ds_stats s' = count_all (ds_stats s) cs /\ ds_groups s' = grow_all (ds_groups s) i cs.
Proof.
  induction 1 as [g i rc p w H1 H2|g i rc rcs p w cs ws H1 H2 H3 IH]; intros s Hg.
  - cbn [run]. rewrite dec_step_out, (step_out_ext _ _ _ _ _ Hg), H1, H2.
    destruct (step_out_spec _ _ _ _ _ _ H1) as (Hsig & _).
    eexists; split; [reflexivity|]. unfold count_all. cbn [fold_left ch_payload ds_stats ds_chunks ds_warns].
    rewrite Hsig. auto.
  - cbn [run]. rewrite dec_step_out, (step_out_ext _ _ _ _ _ Hg), H1, H2.
    destruct (step_out_spec _ _ _ _ _ _ H1) as (Hsig & _).
    edestruct IH as (s' & E1 & E2 & E3 & E4 & E5); [|exists s'; split; [exact E1|]].
    { cbn [ds_groups]. intros k. rewrite grow_len. now apply extend_ext. }
    cbn [ds_chunks ds_warns ds_stats ds_groups] in *. rewrite E2, E3, E4, E5, <- !app_assoc. cbn [count_all fold_left ch_payload grow_all].
    rewrite Hsig. auto.
Qed.

(** The decoder on a file of known frames. *)
Definition warn0 (rsv : bytes) : list warning := if bytes_eqb rsv (repeat x00 8) then [] else [WReserve 24 rsv].
Lemma decode_frames lz spare noXML cc ic rsv fs rcs rest cs ws :
  f32 cc -> f32 ic -> length rsv = 8 -> Forall2 (good_frame lz) fs rcs ->
  steps spare no_groups 0 rcs cs ws ->
  decode lz spare noXML (header 0 cc ic rsv ++ flat_map frame_bytes fs ++ rest) =
    OK (DModel (FModel 0 cc ic cs rest (grow_all [] 0 cs)), warn0 rsv ++ ws, count_all (Stats false 0 cc ic 0 []) cs).
Proof.
  intros H1 H2 H3 Hf Hs. unfold decode. rewrite decode_header by assumption. unfold after_header.
  fold (warn0 rsv).
  destruct (steps_run _ _ _ _ _ _ Hs (DState [] (warn0 rsv) [] (Stats false 0 cc ic 0 []))) as (s' & E1 & E2 & E3 & E4 & E5);
    [reflexivity|].
  rewrite (loop_frames lz _ fs rcs Hf 0 _ s' rest); [|exact E1|eapply flat_frames_fuel; exact Hf].
  cbn in E2, E3, E4, E5. now rewrite E2, E3, E4, E5.
Qed.
Lemma decode_model_inv lz spare noXML input f ws st :
  decode lz spare noXML input = OK (DModel f, ws, st) ->
  exists cc ic rsv fs rcs cs w g,
    g = grow_all [] 0 cs /\
    input = header 0 cc ic rsv ++ flat_map frame_bytes fs ++ fm_trailing f /\
    f32 cc /\ f32 ic /\ length rsv = 8 /\ Forall2 (good_frame lz) fs rcs /\
    steps spare no_groups 0 rcs cs w /\ ws = warn0 rsv ++ w /\
    f = FModel 0 cc ic cs (fm_trailing f) g /\ st = count_all (Stats false 0 cc ic 0 []) cs.
Proof.
  unfold decode. intros H.
  destruct (decode_cases lz (dec_step spare) noXML input)
    as [(cc & ic & rsv & b & -> & H1 & H2 & H3 & E)|[(c & r & _ & _ & E)|(e & st' & E & _)]];
    rewrite E in H; [|destruct noXML; discriminate|discriminate].
  unfold after_header in H. fold (warn0 rsv) in H.
  pose proof (loop_inv lz (dec_step spare) (S (length b)) 0 b (DState [] (warn0 rsv) [] (Stats false 0 cc ic 0 []))
    ltac:(lia)) as L.
  destruct (chunk_loop _ _ _ _ _ _) as [[s rest]|[e s]| |]; try discriminate. injection H as <- <- <-.
  destruct L as (fs & rcs & -> & Hf & Hr).
  { intros i rc s0. rewrite dec_step_out. destruct (step_out _ _ _ _) as [[p w]|]; discriminate. }
  destruct (run_steps _ _ _ _ _ Hr) as (cs & w & Hs & E1 & E2 & E3 & E4). cbn in E1, E2, E3, E4.
  exists cc, ic, rsv, fs, rcs, cs, w, (ds_groups s). cbn [fm_trailing]. rewrite E1, E2, E3. repeat split; auto.
Qed.
