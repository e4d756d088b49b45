(** PropWarn.v - C60: the warnings of Decode of the binary format. *)
From Verif Require Import Base RbxlValues RbxlArrays RbxlModel RbxlFile RbxlFileProofs RbxValues Tree RbxlCodec RbxlApi
  SpecValues SpecModel SpecFile SpecTree SpecCodec SpecTables SpecDecode SpecWarn TreeProofs RbxlCodecDec RbxlCodecTree RbxlCodecForest PropFile.

(** ** The file *)
Lemma step_out_notes spare g i rc p w : step_out spare g i rc = Some (p, w) -> w = chunk_notes i (Chunk (raw_compressed rc) p).
Proof.
  intros H. pose proof (step_out_spec _ _ _ _ _ _ H) as (Hsig & _). unfold step_out in H. destruct (read_payload _ _ _ _) as [[p0 r]|[e r]| |] eqn:E; try discriminate H.
  - apply Some_eq in H. apply pair_equal_spec in H as [<- <-]. unfold chunk_notes. cbn [ch_payload ch_compressed]. destruct (read_payload_sig _ _ _ _ _ _ E) as (_ & H2 & _).
    destruct p0; try reflexivity; [|destruct H2]. cbn [psig] in Hsig. now rewrite Hsig.
  - apply Some_eq in H. apply pair_equal_spec in H as [<- <-]. reflexivity.
Qed.
Lemma steps_notes spare g i rcs cs ws : steps spare g i rcs cs ws -> ws = file_notes i cs.
Proof.
  induction 1 as [g i rc p w H1 H2|g i rc rcs p w cs ws H1 H2 H3 IH]; cbn [file_notes]; apply step_out_notes in H1; subst w; [now rewrite app_nil_r|now rewrite IH].
Qed.
Lemma reserved_at input v cc ic rsv b : input = header v cc ic rsv ++ b -> length rsv = 8 -> firstn 8 (skipn 24 input) = rsv.
Proof.
  intros Hin H3. rewrite Hin, header_eq. set (pre := robloxSig ++ binaryMarker ++ binaryHeader ++ le16 v ++ le32 cc ++ le32 ic).
  assert (L : length pre = 24) by (unfold pre, le16, le32; rewrite !app_length, !le_bytes_length; reflexivity).
  replace ((robloxSig ++ binaryMarker ++ binaryHeader ++ le16 v ++ le32 cc ++ le32 ic ++ rsv) ++ b) with (pre ++ rsv ++ b) by (unfold pre; now rewrite <- !app_assoc).
  rewrite skipn_app, <- L, skipn_all, Nat.sub_diag. cbn [app skipn]. rewrite firstn_app, H3, Nat.sub_diag, firstn_all2 by lia. cbn [firstn]. apply app_nil_r.
Qed.
(** Decoding the container warns of exactly these. *)
Theorem C60_file_warnings : forall lz spare noXML input f ws st,
  decode lz spare noXML input = OK (DModel f, ws, st) -> ws = header_notes input ++ file_notes 0 (fm_chunks f).
Proof.
  intros lz spare noXML input f ws st H.
  destruct (decode_model_inv _ _ _ _ _ _ _ H) as (cc & ic & rsv & fs & rcs & cs & w & g & Hg0 & Hin & H1 & H2 & H3 & Hf & Hs & Hw & Ef & _).
  rewrite Hw, Ef. cbn [fm_chunks]. rewrite (steps_notes _ _ _ _ _ _ Hs). f_equal. unfold header_notes, warn0.
  now rewrite (reserved_at _ _ _ _ _ _ Hin H3).
Qed.
(** ** The tree *)
Lemma has_id_In ids z : has_id ids z = true <-> In z ids.
Proof.
  unfold has_id. rewrite existsb_exists. split.
  - intros (x & Hx & E). apply Z.eqb_eq in E. now subst x.
  - intros H. exists z. split; [exact H|apply Z.eqb_refl].
Qed.
Lemma link_notes_ok ic bound lk ids : lookup_ok lk ids -> forall l j h rt ws,
  match dec_links ic bound lk j l h rt ws with
  | OK (_, _, ws') => ws' = ws ++ link_notes ids ic j l
  | Err (_, ws') => exists w rest, ws' = ws ++ w /\ link_notes ids ic j l = w ++ rest
  | _ => True
  end.
Proof.
  intros (L0 & L1 & L2). induction l as [|[c p] l IH]; intros j h rt ws; cbn [dec_links link_notes]; [now rewrite app_nil_r|].
  destruct (out_of_bounds c bound) eqn:Eb; [exists [], ((if has_id ids c then [] else [CW ic sigPRNT (CChild j c)]) ++ link_notes ids ic (S j) l); split; [now rewrite app_nil_r|reflexivity]|].
  assert (Hc : (lget lk c =? 0)%nat = negb (has_id ids c)).
  { destruct (has_id ids c) eqn:Eh.
    - apply has_id_In, In_nth_error in Eh as [k Hk]. unfold lget. now rewrite (L1 _ _ Hk).
    - unfold lget. rewrite L2; [reflexivity| |].
      + intros ->. discriminate Eb.
      + intros Hin. apply has_id_In in Hin. congruence. }
  rewrite Hc. destruct (has_id ids c); cbn [negb app].
  - destruct (p =? nilInstance)%Z; [apply IH|]. destruct (lfind lk p) as [pp|]; [|apply IH]. destruct (hget h pp); [apply IH|exact I].
  - specialize (IH (S j) h rt (ws ++ [CW ic sigPRNT (CChild j c)])). destruct (dec_links _ _ _ _ _ _ _ _) as [[[h' rt'] ws']|[e ws']| |]; try exact I.
    + now rewrite IH, <- app_assoc.
    + destruct IH as (w & rest & E1 & E2). exists (CW ic sigPRNT (CChild j c) :: w), rest. split; [now rewrite E1, <- app_assoc|]. cbn [app]. now rewrite E2.
Qed.
Section Notes.
Variable (q2m : quat) (f : fmodel).
Hypothesis Hf : file_model f.
Definition chunk_tree_notes (known : list Z) (i : nat) (c : chunk) : list cwarn :=
  match ch_payload c with
  | PProp _ _ None => [CW i sigPROP CNoType]
  | PPrnt _ ch ps => link_notes known i 0 (combine ch ps)
  | _ => []
  end.
Lemma step_notes pre c post s : fm_chunks f = pre ++ c :: post -> is_end c = false -> after q2m f pre s ->
  match dec_chunk q2m f (length pre) (ch_payload c) s with
  | OK s' => k_warns s' = k_warns s ++ chunk_tree_notes (ids_in pre) (length pre) c
  | Err (_, ws) => exists w rest, ws = k_warns s ++ w /\ chunk_tree_notes (ids_in pre) (length pre) c = w ++ rest
  | _ => True
  end.
Proof.
  intros Ef He Ha. unfold is_end in He. unfold chunk_tree_notes.
  assert (N : forall l : list cwarn, exists w rest, k_warns s = k_warns s ++ w /\ l = w ++ rest) by (intros l; exists [], l; split; [now rewrite app_nil_r|reflexivity]).
  destruct (ch_payload c) eqn:Ec; cbn [dec_chunk]; try discriminate He; cbn [k_warns]; try (now rewrite app_nil_r).
  - destruct (out_of_bounds _ _); [apply N|]. destruct (_ && _); [apply N|]. destruct (dec_insts _ _ _ _ _ _ _) as [[h lk]|e| |]; try exact I; [|apply N].
    destruct (group_get _ _) as [[pos r]|]; [|apply N]. destruct (_ =? _)%nat; [cbn [k_warns]; now rewrite app_nil_r|apply N].
  - destruct (out_of_bounds _ _); [apply N|]. destruct (group_get (fm_groups f) classID) as [[pos r]|] eqn:Eg.
    2:{ exfalso. destruct (fi_prop f Hf pre c post _ _ _ Ef Ec) as (n & Hn & _). apply group_len_in in Hn. destruct Hn as (cl & ids & Hn).
        destruct (group_at _ _ Hn) as (p & d & svc & gs & Hd & Ed). cbn in Ed. rewrite (af_pos _ _ _ _ Ha _ _ _ _ _ _ _ Hd Ed) in Eg. discriminate. }
    destruct props as [a|]; [|reflexivity]. destruct (negb _); [apply N|]. destruct (dec_props _ _ _ _ _ _ _ _) as [h|e| |]; try exact I; [cbn [k_warns]; now rewrite app_nil_r|apply N].
  - destruct (negb _); [apply N|]. destruct (negb _); [apply N|].
    pose proof (link_notes_ok (length pre) (fm_instCount f) (k_look s) (ids_in pre) (af_look _ _ _ _ Ha) (combine children parents) 0 (k_heap s) (k_root s) (k_warns s)) as L.
    destruct (dec_links _ _ _ _ _ _ _ _) as [[[h rt] ws]|[e ws]| |]; try exact I; exact L.
Qed.
Lemma run_notes post : forall pre s, fm_chunks f = pre ++ post -> after q2m f pre s ->
  match dec_chunk_list q2m f (length pre) post s with
  | OK s' => k_warns s' = k_warns s ++ tree_notes (ids_in pre) (length pre) post
  | Err (_, ws) => exists w rest, ws = k_warns s ++ w /\ tree_notes (ids_in pre) (length pre) post = w ++ rest
  | _ => True
  end.
Proof.
  induction post as [|c post IH]; intros pre s Ef Ha; cbn [dec_chunk_list tree_notes]; [now rewrite app_nil_r|].
  destruct (is_end c) eqn:He; [unfold is_end in He; destruct (ch_payload c); try discriminate He; now rewrite app_nil_r|].
  assert (E1 : forall X : payload -> outcome (err * list cwarn) dcs, match ch_payload c with PEnd _ => OK s | p => X p end = X (ch_payload c)) by (intros X; unfold is_end in He; destruct (ch_payload c); try discriminate He; reflexivity).
  rewrite (E1 (fun p => s0 <- dec_chunk q2m f (length pre) p s;; dec_chunk_list q2m f (S (length pre)) post s0)).
  assert (E2 : tree_notes (ids_in pre) (length pre) (c :: post) = chunk_tree_notes (ids_in pre) (length pre) c ++ tree_notes (ids_in (pre ++ [c])) (S (length pre)) post).
  { rewrite ids_app. assert (Hi : ids_in [c] = match ch_payload c with PInst _ _ ids _ _ => ids | _ => [] end) by (unfold ids_in, groups_in; cbn [flat_map]; destruct (ch_payload c); cbn; rewrite ?app_nil_r; reflexivity).
    rewrite Hi. unfold chunk_tree_notes. cbn [tree_notes]. unfold is_end in He.
    destruct (ch_payload c) as [| | | ? ? [|] | | | |] eqn:Ec; try discriminate He; cbn [app]; rewrite ?app_nil_r; reflexivity. }
  cbn [tree_notes] in E2. rewrite E2. clear E1 E2.
  pose proof (step_notes pre c post s Ef He Ha) as S1. pose proof (step_after q2m f pre c post s) as S2.
  destruct (dec_chunk q2m f (length pre) (ch_payload c) s) as [s1|[e ws]| |]; cbn [obind]; try exact I.
  - destruct (S2 s1 Hf Ef He Ha eq_refl) as [Ha1 _]. specialize (IH (pre ++ [c]) s1). rewrite app_length in IH. cbn [length] in IH. rewrite Nat.add_1_r in IH.
    specialize (IH ltac:(rewrite Ef, <- app_assoc; reflexivity) Ha1). destruct (dec_chunk_list _ _ _ _ s1) as [s'|[e ws]| |]; try exact I.
    + rewrite IH, S1, <- app_assoc. reflexivity.
    + destruct IH as (w & rest & E1 & E2). exists (chunk_tree_notes (ids_in pre) (length pre) c ++ w), rest. rewrite E1, S1, E2, <- !app_assoc. now split.
  - destruct S1 as (w & rest & E1 & E2). exists w, (rest ++ tree_notes (ids_in (pre ++ [c])) (S (length pre)) post). rewrite E1, E2, <- app_assoc. now split.
Qed.
Lemma codec_notes : match codec_decode q2m f with
  | OK (_, _, cws) => cws = tree_notes [] 0 (fm_chunks f)
  | Err (_, cws) => exists rest, tree_notes [] 0 (fm_chunks f) = cws ++ rest
  | _ => True
  end.
Proof.
  unfold codec_decode. pose proof (run_notes (fm_chunks f) [] k0 eq_refl (after_nil q2m f)) as R. cbn [length] in R. change (ids_in []) with (@nil Z) in R.
  destruct (dec_chunk_list q2m f 0 (fm_chunks f) k0) as [s|[e ws]| |]; cbn [obind]; try exact I; [exact R|]. destruct R as (w & rest & -> & E). exists rest. exact E.
Qed.
End Notes.
(** ** C60: the warnings that Decode returns *)
Theorem C60_decode_warnings : forall lz spare q2m xml noXML input f fws st,
  decode lz spare noXML input = OK (DModel f, fws, st) ->
  let due := map WFile (header_notes input ++ file_notes 0 (fm_chunks f)) in
  let tree := map WCodec (tree_notes [] 0 (fm_chunks f)) in
  match Decoder_Decode lz spare q2m xml noXML input with
  | OK (_, _, ws) => ws = due ++ tree
  | Err (_, ws) => exists seen rest, ws = due ++ seen /\ tree = seen ++ rest
  | _ => True
  end.
Proof.
  intros lz spare q2m xml noXML input f fws st Hd due tree. pose proof (C60_file_warnings _ _ _ _ _ _ _ Hd) as Hw. unfold Decoder_Decode. rewrite Hd.
  pose proof (codec_notes q2m f (decode_file_model _ _ _ _ _ _ _ Hd)) as C. destruct (codec_decode q2m f) as [[[r h] cws]|[e cws]| |]; try exact I.
  - now rewrite Hw, C.
  - destruct C as [rest C]. exists (map WCodec cws), (map WCodec rest). rewrite Hw. split; [reflexivity|]. unfold tree. now rewrite C, map_app.
Qed.
(** When a chunk cannot be read, the warnings of the header and of the chunks
    before it are returned. *)
Lemma loop_err lz spare fuel : forall i b s e s', chunk_loop lz (dec_step spare) fuel i b s = Err (e, s') ->
  exists cs, ds_chunks s' = ds_chunks s ++ cs /\ ds_warns s' = ds_warns s ++ file_notes i cs.
Proof.
  induction fuel as [|fuel IH]; intros i b s e s' H; cbn [chunk_loop] in H; [discriminate H|].
  destruct (raw_read lz b) as [[rc b']|[e' r]| |]; try discriminate H.
  - rewrite dec_step_out in H. destruct (step_out spare (group_len (ds_groups s)) i rc) as [[p w]|] eqn:Ep; [|discriminate H].
    apply step_out_notes in Ep. destruct (is_endp p); [discriminate H|].
    apply IH in H as (cs & E1 & E2). cbn [ds_chunks ds_warns] in E1, E2. exists (Chunk (raw_compressed rc) p :: cs). cbn [file_notes]. rewrite E1, E2, Ep, <- !app_assoc. now split.
  - injection H as <- <-. exists []. cbn [file_notes]. now rewrite !app_nil_r.
Qed.
Theorem C60_error_warnings : forall lz spare q2m xml noXML input e ws st, decode lz spare noXML input = Err (e, ws, st) ->
  Decoder_Decode lz spare q2m xml noXML input = Err (FErr e, map WFile ws) /\
  (ws = [] \/ exists cs, ws = header_notes input ++ file_notes 0 cs).
Proof.
  intros lz spare q2m xml noXML input e ws st E. unfold Decoder_Decode. rewrite E. split; [reflexivity|]. unfold decode in E.
  destruct (decode_cases lz (dec_step spare) noXML input) as [(cc & ic & rsv & b & Hin & H1 & H2 & H3 & D)|[(c & r & _ & _ & D)|(e' & st' & D & _)]]; rewrite D in E; clear D.
  - unfold after_header in E. destruct (chunk_loop _ _ _ _ _ _) as [[s rest]|[e1 s]| |] eqn:L; try discriminate E. injection E as <- <- <-. right.
    apply loop_err in L as (cs & _ & L). exists cs. rewrite L. cbn [ds_warns]. f_equal. unfold header_notes. now rewrite (reserved_at _ _ _ _ _ _ Hin H3).
  - destruct noXML; [|discriminate E]. injection E as <- <- <-. now left.
  - injection E as <- <- <-. now left.
Qed.
Definition warn_file : bytes := header 0 0 0 (str "reserved") ++ str "ABCD" ++ repeat x00 12 ++ str "END" ++ repeat x00 5 ++ [x03] ++ repeat x00 7 ++ str "end".
Example C60_witness : forall q2m xml, Decoder_Decode toy_lz (fun _ => 0) q2m xml true warn_file =
  OK (Root [] [], [], [WFile (WReserve 24 (str "reserved")); WFile (WUnknownSig 0 (le_N (str "ABCD"))); WFile WEndContent]).
Proof. intros. vm_compute. reflexivity. Qed.
