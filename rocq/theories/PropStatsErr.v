(** PropStatsErr.v - C43: the statistics of a decode that fails, and of
    Decompress. *)
From Verif Require Import Base RbxlValues RbxlArrays RbxlModel RbxlFile
  SpecValues SpecArrays SpecWire SpecModel SpecFile SpecStats
  RbxlWordProofs RbxlModelProofs RbxlFileProofs PropFile.

Lemma rBytes_short n b e r : rBytes n b = Err (e, r) -> (N.of_nat (length b) < n)%N.
Proof. unfold rBytes. destruct (N.of_nat (length b) <? n)%N eqn:E; [|discriminate]. intros _. now apply N.ltb_lt. Qed.
Lemma rNum_short k b e r : rNum k b = Err (e, r) -> length b < k.
Proof.
  unfold rNum. destruct (rBytes (N.of_nat k) b) as [[x q]|[e' q]| |] eqn:E; cbn [obind]; try discriminate.
  intros _. apply rBytes_short in E. lia.
Qed.
Lemma field_at pre k v r : (v < 2 ^ (8 * N.of_nat k))%N -> field (length pre) k (pre ++ le_bytes k v ++ r) = v.
Proof.
  intros Hv. unfold field. rewrite !app_length, le_bytes_length. destruct (_ <? _)%nat eqn:E; [apply Nat.ltb_lt in E; lia|].
  rewrite skipn_app, skipn_all, Nat.sub_diag. cbn [app skipn].
  rewrite firstn_app, le_bytes_length, Nat.sub_diag, firstn_all2 by (rewrite le_bytes_length; lia). cbn [firstn]. rewrite app_nil_r.
  now apply le_N_le_bytes_small.
Qed.
Lemma field_short at_ k input : length input < at_ + k -> field at_ k input = 0%N.
Proof. intros H. unfold field. apply Nat.ltb_lt in H. now rewrite H. Qed.

(** ** The header *)
Lemma header_part lz step noXML input e ws st : decode_body lz step noXML input = Err (e, ws, st) ->
  (ws = [] /\ st = header_stats input /\ (length input < 32 \/ firstn 16 input <> magic ++ [x00; x00])) \/
  (exists cc ic rsv b, input = header 0 cc ic rsv ++ b /\ f32 cc /\ f32 ic /\ length rsv = 8 /\
     header_stats input = Stats false 0 cc ic 0 [] /\ after_header lz step 0 cc ic rsv b = Err (e, ws, st)).
Proof.
  intros H.
  assert (Hm : magic = robloxSig ++ binaryMarker ++ binaryHeader) by reflexivity.
  unfold decode_body, fail in H.
  destruct (rBytes_case 8 input) as [[e1 E]|(sg & b & E & Hin & Hsg)]; rewrite E in H.
  { left. injection H as <- <- <-. apply rBytes_short in E. split; [reflexivity|]. split; [|left; lia].
    unfold header_stats. destruct (bytes_eqb (firstn 14 input) magic) eqn:B.
    - apply bytes_eqb_eq, (f_equal (@length _)) in B. rewrite firstn_length in B. change (length magic) with 14 in B. lia.
    - unfold looks_xml. destruct (skipn 7 input) as [|c l] eqn:S; [reflexivity|].
      pose proof (f_equal (@length _) S) as S'. rewrite skipn_length in S'. cbn [length] in S'. assert (length l = 0) by lia.
      assert (length input = 8) by lia. lia. }
  assert (Hsg8 : length sg = 8) by lia. clear Hsg.
  assert (F7 : firstn 7 input = firstn 7 sg).
  { rewrite Hin, firstn_app, Hsg8. cbn [Nat.sub firstn]. apply app_nil_r. }
  assert (Hs : exists c, skipn 7 sg = [c]).
  { pose proof (skipn_length 7 sg) as Q. rewrite Hsg8 in Q. destruct (skipn 7 sg) as [|c [|]]; cbn in Q; try lia. now exists c. }
  destruct Hs as [c Hc]. rewrite Hc in H.
  assert (S7 : skipn 7 input = c :: b).
  { rewrite Hin, skipn_app, Hsg8, Hc. reflexivity. }
  assert (Sg : sg = firstn 7 sg ++ [c]) by (rewrite <- Hc; symmetry; apply firstn_skipn).
  assert (M : forall x, bytes_eqb (firstn 14 input) magic = true -> firstn 16 input = magic ++ x -> firstn 7 sg = robloxSig /\ c = x21).
  { intros x B _. apply bytes_eqb_eq in B.
    assert (B7 : firstn 7 (firstn 14 input) = robloxSig) by (rewrite B; reflexivity).
    rewrite firstn_firstn in B7. change (Nat.min 7 14) with 7 in B7. split; [congruence|].
    assert (B8 : firstn 1 (skipn 7 (firstn 14 input)) = [x21]) by (rewrite B; reflexivity).
    rewrite skipn_firstn_comm, S7 in B8. cbn in B8. congruence. }
  assert (M' : bytes_eqb (firstn 14 input) magic = true -> firstn 7 sg = robloxSig /\ c = x21).
  { intros B. apply (M (firstn 2 (skipn 14 input)) B). apply bytes_eqb_eq in B. rewrite <- B.
    rewrite <- (firstn_skipn 14 (firstn 16 input)), firstn_firstn, skipn_firstn_comm. reflexivity. }
  assert (N16 : bytes_eqb (firstn 14 input) magic = false -> firstn 16 input <> magic ++ [x00; x00]).
  { intros B Q. apply bytes_eqb_neq in B. apply B. change 14 with (Nat.min 14 16). rewrite <- firstn_firstn, Q. reflexivity. }
  destruct (bytes_eqb (firstn 7 sg) robloxSig) eqn:E1; cbn [negb] in H.
  2:{ left. injection H as <- <- <-. split; [reflexivity|]. unfold header_stats.
      destruct (bytes_eqb (firstn 14 input) magic) eqn:B.
      - destruct (M' eq_refl) as [Q _]. apply bytes_eqb_neq in E1. contradiction.
      - split; [|right; now apply N16]. unfold looks_xml. rewrite S7, F7. change (str "<roblox") with robloxSig. rewrite E1. reflexivity. }
  apply bytes_eqb_eq in E1.
  destruct (bytes_eqb [c] binaryMarker) eqn:E2; cbn [negb] in H.
  2:{ left. destruct noXML; [|discriminate H]. injection H as <- <- <-. split; [reflexivity|]. unfold header_stats.
      destruct (bytes_eqb (firstn 14 input) magic) eqn:B.
      - destruct (M' eq_refl) as [_ ->]. discriminate E2.
      - split; [|right; now apply N16]. unfold looks_xml. rewrite S7, F7, E1. change (str "!") with binaryMarker. rewrite E2. reflexivity. }
  apply bytes_eqb_eq in E2. injection E2 as ->.
  rewrite E1 in Sg. clear M M' Hc F7 E1 Hsg8.
  assert (X : looks_xml input = false).
  { unfold looks_xml. rewrite S7. apply andb_false_r. }
  clear S7. rewrite Sg in Hin. clear Sg sg E.
  destruct (rBytes_case 6 b) as [[e1 E]|(h & b2 & E & Hb & H6)]; rewrite E in H.
  { left. injection H as <- <- <-. apply rBytes_short in E. split; [reflexivity|].
    assert (L : length input < 14). { rewrite Hin, !app_length. change (length robloxSig) with 7. cbn [length]. lia. }
    split; [|left; lia]. unfold header_stats. destruct (bytes_eqb (firstn 14 input) magic) eqn:B.
    - apply bytes_eqb_eq, (f_equal (@length _)) in B. rewrite firstn_length in B. change (length magic) with 14 in B. lia.
    - now rewrite X. }
  assert (F14 : firstn 14 input = robloxSig ++ [x21] ++ h).
  { rewrite Hin, Hb. replace ((robloxSig ++ [x21]) ++ h ++ b2) with ((robloxSig ++ [x21] ++ h) ++ b2) by now rewrite <- !app_assoc.
    rewrite firstn_app, firstn_all2; rewrite ?app_length; change (length robloxSig) with 7; cbn [length]; [|lia].
    replace (14 - (7 + (1 + length h))) with 0 by lia. apply app_nil_r. }
  destruct (bytes_eqb h binaryHeader) eqn:E3; cbn [negb] in H.
  2:{ left. injection H as <- <- <-. split; [reflexivity|].
      assert (B : bytes_eqb (firstn 14 input) magic = false).
      { apply bytes_eqb_neq. rewrite F14. intros Q. apply bytes_eqb_neq in E3. apply E3. rewrite Hm in Q. apply app_inv_head in Q. exact (app_inv_head [x21] _ _ Q). }
      split; [|right; now apply N16]. unfold header_stats. now rewrite B, X. }
  apply bytes_eqb_eq in E3. subst h.
  assert (B : bytes_eqb (firstn 14 input) magic = true) by (rewrite F14; apply bytes_eqb_refl). clear F14 N16 E H6.
  assert (Hin2 : input = magic ++ b2). { rewrite Hin, Hb, Hm, <- !app_assoc. reflexivity. }
  clear Hin Hb. unfold header_stats. rewrite B. clear B X b.
  assert (L : length input = 14 + length b2) by (rewrite Hin2, app_length; reflexivity).
  destruct (rNum_case 2 b2) as [[e1 E]|(v & b3 & E & Hb2 & Hv)]; rewrite E in H.
  { left. injection H as <- <- <-. apply rNum_short in E. split; [reflexivity|]. split; [|left; lia].
    rewrite !field_short by lia. reflexivity. }
  assert (F1 : field 14 2 input = v). { rewrite Hin2, Hb2. now apply (field_at magic). }
  rewrite F1. assert (L3 : length b2 = 2 + length b3) by (rewrite Hb2, app_length, le_bytes_length; reflexivity).
  destruct (v =? 0)%N eqn:E4; cbn [negb] in H.
  2:{ left. injection H as <- <- <-. split; [reflexivity|]. split; [reflexivity|]. right. intros Q. apply N.eqb_neq in E4. apply E4. rewrite <- F1.
      unfold field. destruct (_ <? _)%nat eqn:B; [reflexivity|].
      assert (Q2 : firstn 2 (skipn 14 input) = [x00; x00]). { change 2 with (16 - 14). rewrite <- skipn_firstn_comm, Q. reflexivity. }
      rewrite Q2. reflexivity. }
  apply N.eqb_eq in E4. subst v. clear F1 E Hv.
  destruct (rNum_case 4 b3) as [[e1 E]|(cc & b4 & E & Hb3 & Hcc)]; rewrite E in H.
  { left. injection H as <- <- <-. apply rNum_short in E. split; [reflexivity|]. split; [|left; lia].
    rewrite !field_short by lia. reflexivity. }
  assert (F2 : field 16 4 input = cc).
  { rewrite Hin2, Hb2, Hb3, app_assoc. now apply (field_at (magic ++ le_bytes 2 0)). }
  rewrite F2. assert (L4 : length b3 = 4 + length b4) by (rewrite Hb3, app_length, le_bytes_length; reflexivity). clear E.
  destruct (rNum_case 4 b4) as [[e1 E]|(ic & b5 & E & Hb4 & Hic)]; rewrite E in H.
  { left. injection H as <- <- <-. apply rNum_short in E. split; [reflexivity|]. split; [|left; lia].
    rewrite !field_short by lia. reflexivity. }
  assert (F3 : field 20 4 input = ic).
  { rewrite Hin2, Hb2, Hb3, Hb4, (app_assoc magic), (app_assoc (magic ++ _)).
    replace 20 with (length ((magic ++ le_bytes 2 0) ++ le_bytes 4 cc)) by (rewrite app_length, le_bytes_length; reflexivity).
    now apply field_at. }
  rewrite F3. assert (L5 : length b4 = 4 + length b5) by (rewrite Hb4, app_length, le_bytes_length; reflexivity). clear E.
  destruct (rBytes_case 8 b5) as [[e1 E]|(rsv & b6 & E & Hb5 & Hr)]; rewrite E in H.
  { left. injection H as <- <- <-. apply rBytes_short in E. split; [reflexivity|]. split; [reflexivity|left; lia]. }
  right. exists cc, ic, rsv, b6. split.
  { rewrite header_eq, Hin2, Hb2, Hb3, Hb4, Hb5, Hm, <- !app_assoc. reflexivity. }
  split; [exact Hcc|]. split; [exact Hic|]. split; [lia|]. split; [reflexivity|]. unfold after_header.
  replace (length input - length b6 - 8) with 24 in H; [exact H|].
  rewrite L, L3, L4, L5, Hb5, app_length. lia.
Qed.

(** ** The chunks *)
Definition end_frame : frame := Frame sigEND 0 9 0 endContent.
Definition end_raw : rawchunk := RbxlModel.Raw sigEND false endContent.
Lemma end_frame_bytes : frame_bytes end_frame = end_bytes.
Proof. reflexivity. Qed.
Lemma end_frame_good lz : good_frame lz end_frame end_raw.
Proof. repeat split; reflexivity. Qed.
Lemma raw_err_no_chunk lz rest e r : raw_read lz rest = Err (e, r) -> no_chunk lz rest.
Proof. intros E f rc q H1 H2 ->. rewrite (raw_read_frame lz f rc) in E by assumption. discriminate E. Qed.

Lemma loop_failed lz step fuel : forall i b s e s',
  (forall i rc s, exists s1 fin, step i rc s = OK (s1, fin) \/ step i rc s = Panic) ->
  chunk_loop lz step fuel i b s = Err (e, s') ->
  exists fs rcs rest, b = flat_map frame_bytes fs ++ rest /\ Forall2 (good_frame lz) fs rcs /\ no_chunk lz rest /\
    (exists r, raw_read lz rest = Err (e, r)) /\
    forall rc s2, step (i + length rcs) rc s' = OK (s2, true) -> run step i (rcs ++ [rc]) s = OK s2.
Proof.
  intros i b s e s' Hstep. revert i b s. induction fuel as [|fuel IH]; intros i b s H; cbn [chunk_loop] in H; [discriminate H|].
  destruct (raw_read_case lz b) as [(e' & r & E)|[(f & rc & r & E & Eb & Hf1 & Hf2)|(E & _)]]; rewrite E in H; [| |discriminate H].
  - injection H as <- <-. exists [], [], b. split; [reflexivity|]. split; [constructor|]. split; [eapply raw_err_no_chunk; exact E|].
    split; [eauto|]. intros rc s2 Es. cbn [length app run] in *. rewrite Nat.add_0_r in Es. now rewrite Es.
  - destruct (Hstep i rc s) as (s1 & fin & [Es|Es]); rewrite Es in H; [|discriminate H]. destruct fin; [discriminate H|].
    apply IH in H as (fs & rcs & rest & -> & Hfs & Hn & He & Hr). exists (f :: fs), (rc :: rcs), rest.
    split; [rewrite Eb; cbn [flat_map]; now rewrite app_assoc|]. split; [constructor; [split|]; assumption|]. split; [exact Hn|]. split; [exact He|].
    intros rc' s2 E2. cbn [length app run] in *. rewrite Es. apply Hr. rewrite <- E2. f_equal. lia.
Qed.
Lemma dec_step_ok spare i rc s : exists s1 fin, dec_step spare i rc s = OK (s1, fin) \/ dec_step spare i rc s = Panic.
Proof. rewrite dec_step_out. destruct (step_out _ _ _ _) as [[p w]|]; [eexists _, _; left; reflexivity|exists s, true; now right]. Qed.
Lemma dcomp_step_ok i rc s : exists s1 fin, (fun (_ : nat) rc s => OK (dcomp_step rc s) : res (dstate * bool)) i rc s = OK (s1, fin) \/ (fun (_ : nat) rc s => OK (dcomp_step rc s) : res (dstate * bool)) i rc s = Panic.
Proof. destruct (dcomp_step rc s) as [s1 fin] eqn:E. exists s1, fin. left. now rewrite E. Qed.

(** C43, failures: a decode that fails leaves the counts of the header as far
    as it was read, and counts the chunks before the one that could not be
    read: they are the chunks of the file cut there and ended. *)
Theorem C43_failed : forall lz spare noXML input e ws st,
  decode lz spare noXML input = Err (e, ws, st) ->
  st = header_stats input /\ (length input < 32 \/ firstn 16 input <> magic ++ [x00; x00]) \/
  exists done rest f cs,
    input = done ++ rest /\ 32 <= length done /\ firstn 16 input = magic ++ [x00; x00] /\ no_chunk lz rest /\
    decode lz spare noXML (done ++ end_bytes) =
      OK (DModel f, ws, Stats false 0 (fm_classCount f) (fm_instCount f) (S (st_chunks st)) (st_chunkTypes st ++ [sigEND])) /\
    fm_chunks f = cs ++ [Chunk false (PEnd (str "</roblox>"))] /\
    st_xml st = false /\ st_version st = 0%N /\
    st_classCount st = field 16 4 input /\ st_instCount st = field 20 4 input /\
    fm_classCount f = field 16 4 input /\ fm_instCount f = field 20 4 input /\
    st_chunkTypes st = map (fun c => psig (ch_payload c)) cs /\
    st_chunks st = length (filter (fun c => negb (is_errored c)) cs).
Proof.
  intros lz spare noXML input e ws st H. unfold decode in H.
  destruct (header_part _ _ _ _ _ _ _ H) as [(_ & -> & L)|(cc & ic & rsv & b & Hin & H1 & H2 & H3 & Hh & Ha)]; [left; auto|right].
  unfold after_header in Ha. fold (warn0 rsv) in Ha.
  destruct (chunk_loop _ _ _ _ _ _) as [[s' rest]|[e' s']| |] eqn:Hl; try discriminate Ha. injection Ha as <- <- <-.
  destruct (loop_failed _ _ _ _ _ _ _ _ (dec_step_ok spare) Hl) as (fs & rcs & rest & -> & Hfs & Hn & _ & Hr).
  specialize (Hr end_raw). cbn [plus] in Hr. set (i := 0 + length rcs) in Hr.
  assert (Es : dec_step spare i end_raw s' = OK (DState (ds_chunks s' ++ [Chunk false (PEnd endContent)]) (ds_warns s') (ds_groups s') (st_chunk (st_sig (ds_stats s') sigEND)), true)).
  { unfold dec_step, end_raw. cbn [raw_sig raw_payload raw_compressed].
    change (read_payload spare (group_len (ds_groups s')) sigEND endContent) with (@OK (err * bytes) (payload * bytes) (PEnd endContent, [])).
    cbv beta iota zeta. rewrite bytes_eqb_refl, app_nil_r. reflexivity. }
  specialize (Hr _ Es).
  destruct (run_steps _ _ _ _ _ Hr) as (cs & w & Hs & E1 & E2 & E3 & E4). cbn [ds_chunks ds_warns ds_stats ds_groups app] in E1, E2, E3, E4.
  assert (Hf2 : Forall2 (good_frame lz) (fs ++ [end_frame]) (rcs ++ [end_raw])).
  { apply Forall2_app; [exact Hfs|]. constructor; [apply end_frame_good|constructor]. }
  pose proof (decode_frames lz spare noXML cc ic rsv _ _ [] cs w H1 H2 H3 Hf2 Hs) as D.
  rewrite app_nil_r, flat_map_app in D. cbn [flat_map] in D. rewrite app_nil_r, end_frame_bytes in D.
  exists (header 0 cc ic rsv ++ flat_map frame_bytes fs), rest, (FModel 0 cc ic cs [] (grow_all [] 0 cs)), (ds_chunks s').
  cbn [fm_classCount fm_instCount fm_chunks].
  assert (Fm : firstn 16 input = magic ++ [x00; x00]) by (rewrite Hin, header_eq; reflexivity).
  assert (Hh2 : Stats false 0 (field 16 4 input) (field 20 4 input) 0 [] = Stats false 0 cc ic 0 []).
  { rewrite <- Hh. unfold header_stats. change 14 with (Nat.min 14 16). rewrite <- firstn_firstn, Fm.
    change (firstn 14 (magic ++ [x00; x00])) with magic. rewrite bytes_eqb_refl. change (Nat.min 14 16) with 14.
    assert (F0 : field 14 2 input = 0%N) by (unfold field; destruct (_ <? _)%nat; [reflexivity|]; change 2 with (16 - 14); rewrite <- skipn_firstn_comm, Fm; reflexivity).
    rewrite F0. reflexivity. }
  injection Hh2 as Fc Fi. rewrite Fc, Fi.
  destruct (count_all_spec cs (Stats false 0 cc ic 0 [])) as (C1 & C2 & C3 & C4 & C5 & C6). rewrite <- E3 in C1, C2, C3, C4, C5, C6.
  rewrite <- E1 in C5, C6. rewrite map_app in C5. rewrite filter_app, app_length in C6.
  destruct (ds_stats s') as [x v c n k t]. cbn [st_sig st_chunk st_xml st_version st_classCount st_instCount st_chunks st_chunkTypes map app filter ch_payload psig is_errored negb length plus] in *.
  apply app_inj_tail in C5 as [C5 _]. subst x v c n.
  split; [now rewrite Hin, <- app_assoc|]. split.
  { rewrite app_length, header_eq. unfold le16, le32. rewrite !app_length, !le_bytes_length, H3. change (length robloxSig) with 7. change (length binaryMarker) with 1. change (length binaryHeader) with 6. lia. }
  split; [exact Fm|]. split; [exact Hn|]. split.
  { rewrite <- app_assoc, D, <- E3, E2. reflexivity. }
  split; [symmetry; exact E1|]. repeat split; auto. lia.
Qed.

(** ** Decompress *)
Notation dstep := (fun (_ : nat) rc s => OK (dcomp_step rc s)).
Lemma run_dcomp_stats rcs : forall i s s', run dstep i rcs s = OK s' ->
  ds_stats s' = Stats (st_xml (ds_stats s)) (st_version (ds_stats s)) (st_classCount (ds_stats s)) (st_instCount (ds_stats s))
    (st_chunks (ds_stats s) + length rcs) (st_chunkTypes (ds_stats s) ++ map raw_sig rcs).
Proof.
  induction rcs as [|rc rcs IH]; intros i s s' H; [discriminate|]. cbn [run dcomp_step] in H.
  destruct (raw_sig rc =? sigEND)%N.
  - destruct rcs; [|discriminate]. injection H as <-. cbn [length map ds_stats]. rewrite Nat.add_1_r. reflexivity.
  - rewrite (IH _ _ _ H). cbn [length map ds_stats st_chunk st_sig st_xml st_version st_classCount st_instCount st_chunks st_chunkTypes]. rewrite <- app_assoc, Nat.add_succ_r. reflexivity.
Qed.
Lemma dcomp_frames lz noXML cc ic rsv fs rcs rest s' :
  f32 cc -> f32 ic -> length rsv = 8 -> Forall2 (good_frame lz) fs rcs ->
  run dstep 0 rcs (DState [] (warn0 rsv) [] (Stats false 0 cc ic 0 [])) = OK s' ->
  decode_dcomp lz noXML (header 0 cc ic rsv ++ flat_map frame_bytes fs ++ rest) =
    OK (DModel (FModel 0 cc ic (ds_chunks s') rest (ds_groups s')), ds_warns s', ds_stats s').
Proof.
  intros H1 H2 H3 Hf Hr. unfold decode_dcomp. rewrite decode_header by assumption. unfold after_header. fold (warn0 rsv).
  rewrite (loop_frames lz _ fs rcs Hf 0 _ s' rest); [reflexivity|exact Hr|eapply flat_frames_fuel; exact Hf].
Qed.
Lemma dcomp_sigs rcs : map (fun c => psig (ch_payload c)) (map (fun rc => Chunk (raw_compressed rc) (PUnknown (raw_sig rc) (raw_payload rc))) rcs) = map raw_sig rcs.
Proof. induction rcs as [|rc rcs IH]; [reflexivity|]. cbn [map ch_payload psig]. now rewrite IH. Qed.
(** Decompress counts every chunk. *)
Theorem C43_decompress : forall lz noXML input f ws st,
  decode_dcomp lz noXML input = OK (DModel f, ws, st) ->
  st = Stats false (fm_version f) (fm_classCount f) (fm_instCount f) (length (fm_chunks f))
         (map (fun c => psig (ch_payload c)) (fm_chunks f)).
Proof.
  intros lz noXML input f ws st H. unfold decode_dcomp in H.
  destruct (decode_cases lz dstep noXML input)
    as [(cc & ic & rsv & b & -> & H1 & H2 & H3 & E)|[(c & r & _ & _ & E)|(e & st' & E & _)]];
    rewrite E in H; [|destruct noXML; discriminate|discriminate].
  unfold after_header in H. fold (warn0 rsv) in H.
  pose proof (loop_inv lz dstep (S (length b)) 0 b (DState [] (warn0 rsv) [] (Stats false 0 cc ic 0 [])) ltac:(lia)) as L.
  destruct (chunk_loop _ _ _ _ _ _) as [[s rest]|[e s]| |]; try discriminate. injection H as <- <- <-.
  destruct L as (fs & rcs & -> & Hf & Hr); [discriminate|].
  pose proof (run_dcomp_stats _ _ _ _ Hr) as Es. destruct (run_dcomp _ _ _ _ Hr) as (E1 & _). cbn in E1, Es.
  cbn [fm_version fm_classCount fm_instCount fm_chunks]. rewrite Es, E1, dcomp_sigs, map_length. reflexivity.
Qed.
Theorem C43_decompress_failed : forall lz noXML input e ws st,
  decode_dcomp lz noXML input = Err (e, ws, st) ->
  st = header_stats input /\ (length input < 32 \/ firstn 16 input <> magic ++ [x00; x00]) \/
  exists done rest f,
    input = done ++ rest /\ 32 <= length done /\ firstn 16 input = magic ++ [x00; x00] /\ no_chunk lz rest /\
    decode_dcomp lz noXML (done ++ end_bytes) =
      OK (DModel f, ws, Stats false 0 (fm_classCount f) (fm_instCount f) (S (st_chunks st)) (st_chunkTypes st ++ [sigEND])) /\
    st = Stats false 0 (field 16 4 input) (field 20 4 input) (st_chunks st) (st_chunkTypes st) /\
    fm_classCount f = field 16 4 input /\ fm_instCount f = field 20 4 input.
Proof.
  intros lz noXML input e ws st H. unfold decode_dcomp in H.
  destruct (header_part _ _ _ _ _ _ _ H) as [(_ & -> & L)|(cc & ic & rsv & b & Hin & H1 & H2 & H3 & Hh & Ha)]; [left; auto|right].
  unfold after_header in Ha. fold (warn0 rsv) in Ha.
  destruct (chunk_loop _ _ _ _ _ _) as [[s' rest]|[e' s']| |] eqn:Hl; try discriminate Ha. injection Ha as <- <- <-.
  destruct (loop_failed _ _ _ _ _ _ _ _ dcomp_step_ok Hl) as (fs & rcs & rest & -> & Hfs & Hn & _ & Hr).
  specialize (Hr end_raw _ eq_refl).
  assert (Hf2 : Forall2 (good_frame lz) (fs ++ [end_frame]) (rcs ++ [end_raw])).
  { apply Forall2_app; [exact Hfs|]. constructor; [apply end_frame_good|constructor]. }
  pose proof (dcomp_frames lz noXML cc ic rsv _ _ [] _ H1 H2 H3 Hf2 Hr) as D.
  rewrite app_nil_r, flat_map_app in D. cbn [flat_map] in D. rewrite app_nil_r, end_frame_bytes in D.
  pose proof (run_dcomp_stats _ _ _ _ Hr) as Es. cbn [ds_stats ds_warns ds_chunks ds_groups dcomp_step end_raw raw_sig] in Es, D.
  assert (Fm : firstn 16 input = magic ++ [x00; x00]) by (rewrite Hin, header_eq; reflexivity).
  assert (Hh2 : Stats false 0 (field 16 4 input) (field 20 4 input) 0 [] = Stats false 0 cc ic 0 []).
  { rewrite <- Hh. unfold header_stats. change 14 with (Nat.min 14 16). rewrite <- firstn_firstn, Fm.
    change (firstn 14 (magic ++ [x00; x00])) with magic. rewrite bytes_eqb_refl. change (Nat.min 14 16) with 14.
    assert (F0 : field 14 2 input = 0%N) by (unfold field; destruct (_ <? _)%nat; [reflexivity|]; change 2 with (16 - 14); rewrite <- skipn_firstn_comm, Fm; reflexivity).
    rewrite F0. reflexivity. }
  injection Hh2 as Fc Fi. rewrite Fc, Fi.
  match type of D with _ = OK (DModel ?f, _, _) => exists (header 0 cc ic rsv ++ flat_map frame_bytes fs), rest, f end.
  destruct (ds_stats s') as [x v c n k t]. cbn [st_sig st_chunk st_xml st_version st_classCount st_instCount st_chunks st_chunkTypes] in *.
  injection Es as -> -> -> -> Ek Et.
  split; [now rewrite Hin, <- app_assoc|]. split.
  { rewrite app_length, header_eq. unfold le16, le32. rewrite !app_length, !le_bytes_length, H3. change (length robloxSig) with 7. change (length binaryMarker) with 1. change (length binaryHeader) with 6. lia. }
  split; [exact Fm|]. split; [exact Hn|]. split; [rewrite <- app_assoc, D; reflexivity|]. repeat split.
Qed.

(** A file cut inside its third chunk: two chunks are counted, one of them bad. *)
Definition cut_file : bytes := header 0 5 7 (repeat x00 8) ++ str "ABCD" ++ repeat x00 12 ++ str "INST" ++ repeat x00 12 ++ str "EN".
Lemma C43_failed_witness :
  decode toy_lz (fun _ => 0) true cut_file =
    Err (EUnexpectedEOF, [WUnknownSig 0 (le_N (str "ABCD")); WChunk 1 sigINST EEOF], Stats false 0 5 7 1 [le_N (str "ABCD"); sigINST]) /\
  decode toy_lz (fun _ => 0) true (str "<roblox ") = Err (EInvalidSig, [], Stats true 0 0 0 0 []) /\
  decode toy_lz (fun _ => 0) true (magic ++ [x07; x01]) = Err (EVersion 263, [], Stats false 263 0 0 0 []) /\
  decode toy_lz (fun _ => 0) true (magic ++ [x00; x00; x03; x00; x00; x00; x09]) = Err (EUnexpectedEOF, [], Stats false 0 3 0 0 []).
Proof. repeat split; vm_compute; reflexivity. Qed.
Print Assumptions C43_failed.
Print Assumptions C43_decompress.
Print Assumptions C43_decompress_failed.
