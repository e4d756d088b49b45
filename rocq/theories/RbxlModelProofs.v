(** RbxlModelProofs.v - lemmas about chunks and framing. *)
From Verif Require Import Base RbxlValues RbxlArrays RbxlModel SpecValues SpecArrays SpecWire SpecModel
  RbxlWordProofs RbxlValuesProofs TransposeProofs RbxlArraysProofs PropWire.

Lemma rBytes_app n x r : N.of_nat (length x) = n -> rBytes n (x ++ r) = OK (x, r).
Proof.
  intros <-. unfold rBytes. rewrite app_length.
  destruct (N.of_nat (length x + length r) <? N.of_nat (length x))%N eqn:E; [lia|].
  rewrite Nat2N.id, firstn_app_exact, skipn_app_exact by reflexivity. reflexivity.
Qed.
Lemma rNum_app k x r : (x < 2 ^ (8 * N.of_nat k))%N -> rNum k (le_bytes k x ++ r) = OK (x, r).
Proof.
  intros H. unfold rNum. rewrite rBytes_app by now rewrite le_bytes_length.
  cbn [obind]. now rewrite le_N_le_bytes_small.
Qed.
Lemma rNum4_app x r : f32 x -> rNum 4 (le32 x ++ r) = OK (x, r).
Proof. intros H. apply rNum_app. exact H. Qed.
Lemma rI32_app z r : int_range 32 z -> rI32 (le32 (toN 32 z) ++ r) = OK (z, r).
Proof.
  intros H. unfold rI32. rewrite rNum4_app by (apply (toN_lt 32); lia). cbn [obind].
  rewrite ofN_toN; [reflexivity|lia|now apply int_range_in].
Qed.
Lemma readString_app s r : len32 s -> readString (writeString s ++ r) = OK (s, r).
Proof.
  intros H. unfold readString, writeString. rewrite <- app_assoc, rNum4_app by exact H. cbn [obind].
  now rewrite rBytes_app.
Qed.
Lemma read_pairs_app vs r : Forall (fun kv => len32 (fst kv) /\ len32 (snd kv)) vs ->
  read_pairs (length vs) (flat_map (fun kv => writeString (fst kv) ++ writeString (snd kv)) vs ++ r) = OK (vs, r).
Proof.
  induction 1 as [|[k v] vs [Hk Hv] H IH]; [reflexivity|].
  cbn [length flat_map read_pairs fst snd]. rewrite <- !app_assoc, readString_app by exact Hk.
  cbn [obind]. rewrite readString_app by exact Hv. cbn [obind]. now rewrite IH.
Qed.
Lemma read_shared_app vs r : Forall (fun hv => length (fst hv) = 16 /\ len32 (snd hv)) vs ->
  read_shared (length vs) (flat_map (fun hv => fst hv ++ writeString (snd hv)) vs ++ r) = OK (vs, r).
Proof.
  induction 1 as [|[k v] vs [Hk Hv] H IH]; [reflexivity|].
  cbn [length flat_map read_shared fst snd] in *. rewrite <- !app_assoc, rBytes_app by now rewrite Hk.
  cbn [obind]. rewrite readString_app by exact Hv. cbn [obind]. now rewrite IH.
Qed.
Lemma write_ids_ok l : ids_ok l -> exists b, write_ids l = OK b /\ length b = 4 * length l /\
  forall r, read_ids (N.of_nat (length l)) (b ++ r) = OK (l, r).
Proof.
  intros [H1 H2]. destruct l as [|z l].
  - exists []. repeat split.
  - destruct (refArray_roundtrip (z :: l)) as (b & E1 & E2 & E3); [discriminate|exact H1|].
    exists b. split; [exact E1|]. split; [exact E2|]. intros r. unfold read_ids.
    destruct (N.of_nat (length (z :: l)) =? 0)%N eqn:E; [cbn in E; lia|].
    rewrite N.mod_small by (change (2 ^ 30)%N with 1073741824%N in H2; change (2 ^ 32)%N with 4294967296%N; lia).
    rewrite rBytes_app by (rewrite E2; lia). cbn [obind]. rewrite Nat2N.id, E3. reflexivity.
Qed.
Lemma len30_32 n : (n < 2 ^ 30)%N -> f32 n.
Proof. unfold f32. change (2 ^ 30)%N with 1073741824%N. change (2 ^ 32)%N with 4294967296%N. lia. Qed.

Lemma array_ok_roundtrip spare a : array_ok a -> exists b, typeArrayToBytes a = OK b /\ b <> [] /\
  typeArrayFromBytes spare b (arr_len a) = OK (stored_array a, length b).
Proof.
  intros (H1 & H2 & H3). destruct (typeArrayToBytes_ok a H1 H2) as [b Hb]. exists b. split; [exact Hb|].
  split; [pose proof (typeArrayToBytes_length a H1 b Hb); destruct b; [discriminate|congruence]|].
  destruct a as [t vs|v ps].
  - inversion H1 as [? ? Ht Hvs|]; subst. rewrite <- (app_nil_r b) at 1.
    cbn [arr_len stored_array]. now apply typeArray_plain.
  - rewrite <- (app_nil_r b) at 1. apply optional_roundtrip; auto.
    rewrite <- interleaved_spec in H3. destruct (interleaved _); congruence.
Qed.

Ltac sigs := unfold read_payload, sigMETA, sigSSTR, sigINST, sigPROP, sigPRNT, sigEND; cbn [N.eqb Pos.eqb].

(** Writing succeeds and reading gives the payload back; META, SSTR, INST and
    PRNT ignore what follows. *)
Lemma payload_roundtrip spare g p : wf_payload g p ->
  exists b, payload_bytes p = OK b /\
    read_payload spare g (psig p) b = OK (stored_payload p, []) /\
    (In (psig p) [sigMETA; sigSSTR; sigINST; sigPRNT] ->
       forall r, read_payload spare g (psig p) (b ++ r) = OK (stored_payload p, r)).
Proof.
  assert (Hnil : forall b0 p0, (forall r, read_payload spare g (psig p0) (b0 ++ r) = OK (p0, r)) ->
    read_payload spare g (psig p0) b0 = OK (p0, [])).
  { intros b0 p0 H. rewrite <- (app_nil_r b0) at 1. apply H. }
  destruct p as [vs|v vs|id name ids svc gs|id name a|v ch ps|c|s c|s o e c]; intros H.
  - destruct H as [H1 H2]. cbn [payload_bytes]. eexists; split; [reflexivity|].
    assert (A : forall r, read_payload spare g (psig (PMeta vs)) ((le32 (N.of_nat (length vs)) ++
      flat_map (fun kv => writeString (fst kv) ++ writeString (snd kv)) vs) ++ r) = OK (PMeta vs, r)).
    { intros r. cbn [psig]. sigs. unfold read_meta. rewrite <- app_assoc, rNum4_app by exact H1. cbn [obind].
      now rewrite Nat2N.id, read_pairs_app. }
    split; [now apply Hnil|intros _; exact A].
  - destruct H as (H1 & H2 & H3). cbn [payload_bytes]. eexists; split; [reflexivity|].
    assert (A : forall r, read_payload spare g (psig (PSstr v vs)) ((le32 v ++ le32 (N.of_nat (length vs)) ++
      flat_map (fun hv => fst hv ++ writeString (snd hv)) vs) ++ r) = OK (PSstr v vs, r)).
    { intros r. cbn [psig]. sigs. unfold read_sstr. rewrite <- !app_assoc, rNum4_app by exact H1. cbn [obind].
      rewrite rNum4_app by exact H2. cbn [obind]. now rewrite Nat2N.id, read_shared_app. }
    split; [now apply Hnil|intros _; exact A].
  - destruct H as (H1 & H2 & H3 & H4). destruct (write_ids_ok ids H3) as (b & E1 & E2 & E3).
    cbn [payload_bytes]. rewrite E1. cbn [obind]. eexists; split; [reflexivity|].
    assert (A : forall r, read_payload spare g (psig (PInst id name ids svc gs))
      ((le32 (toN 32 id) ++ writeString name ++ [if svc then x01 else x00] ++
        le32 (N.of_nat (length ids)) ++ b ++ (if svc then gs else [])) ++ r) = OK (PInst id name ids svc (if svc then gs else []), r)).
    { intros r. cbn [psig]. sigs. unfold read_inst. rewrite <- !app_assoc, rI32_app by exact H1. cbn [obind].
      rewrite readString_app by exact H2. cbn [obind].
      change [if svc then x01 else x00] with (le_bytes 1 (if svc then 1 else 0)%N) || idtac.
      replace [if svc then x01 else x00] with (le_bytes 1 (if svc then 1 else 0)%N) by (destruct svc; reflexivity).
      rewrite rNum_app by (destruct svc; reflexivity). cbn [obind].
      rewrite rNum4_app by (apply len30_32, H3). cbn [obind]. rewrite E3. cbn [obind].
      destruct svc; [specialize (H4 eq_refl)|]; cbn [negb N.eqb]; [rewrite rBytes_app by now rewrite H4|]; cbn [obind]; reflexivity. }
    split; [|intros _; exact A]. cbn [stored_payload].
    apply (Hnil _ (PInst id name ids svc (if svc then gs else []))). exact A.
  - destruct H as (H1 & H2 & H3). destruct a as [a|].
    + destruct H3 as [H3 H4]. destruct (array_ok_roundtrip (spare (length (match typeArrayToBytes a with OK b => b | _ => [] end))) a H3) as (b & E1 & E2 & E3).
      rewrite E1 in E3. cbn [payload_bytes]. rewrite E1. cbn [obind]. eexists; split; [reflexivity|].
      split; [|cbn [psig]; cbv [In]; intros [Hx|[Hx|[Hx|[Hx|[]]]]]; discriminate Hx].
      cbn [psig stored_payload]. sigs. unfold read_prop. rewrite rI32_app by exact H1. cbn [obind].
      rewrite H4, readString_app by exact H2. cbn [obind]. destruct b as [|b0 b]; [congruence|].
      rewrite E3. reflexivity.
    + destruct H3 as [n H3]. cbn [payload_bytes]. eexists; split; [reflexivity|].
      split; [|cbn [psig]; cbv [In]; intros [Hx|[Hx|[Hx|[Hx|[]]]]]; discriminate Hx].
      cbn [psig stored_payload]. sigs. unfold read_prop. rewrite rI32_app by exact H1. cbn [obind].
      rewrite H3. rewrite <- (app_nil_r (writeString name)), readString_app by exact H2. reflexivity.
  - destruct H as (H1 & H2 & H3 & H4).
    destruct (write_ids_ok ch H2) as (b1 & E1 & E2 & E3). destruct (write_ids_ok ps H3) as (b2 & F1 & F2 & F3).
    cbn [payload_bytes]. rewrite H4, Nat.eqb_refl. cbn [negb]. rewrite E1. cbn [obind]. rewrite F1. cbn [obind].
    eexists; split; [reflexivity|].
    assert (A : forall r, read_payload spare g (psig (PPrnt v ch ps))
      (([N2b v] ++ le32 (N.of_nat (length ps)) ++ b1 ++ b2) ++ r) = OK (PPrnt v ch ps, r)).
    { intros r. cbn [psig]. sigs. unfold read_prnt. change [N2b v] with (le_bytes 1 v).
      rewrite <- !app_assoc, rNum_app by exact H1. cbn [obind].
      rewrite rNum4_app by (apply len30_32, H3). cbn [obind]. rewrite <- H4 at 1. rewrite E3. cbn [obind].
      rewrite F3. reflexivity. }
    split; [now apply Hnil|intros _; exact A].
  - cbn [payload_bytes]. eexists; split; [reflexivity|]. cbn [psig]. split; [reflexivity|].
    cbv [In]; intros [Hx|[Hx|[Hx|[Hx|[]]]]]; discriminate Hx.
  - destruct H as [H1 H2]. cbn [payload_bytes]. eexists; split; [reflexivity|]. cbn [psig stored_payload].
    assert (A : forall r, read_payload spare g s r = OK (PUnknown s r, [])).
    { intros r. unfold known_sig, In in H2. unfold read_payload.
      repeat match goal with |- context [(s =? ?x)%N] => destruct (N.eqb_spec s x); [exfalso; apply H2; intuition congruence|] end.
      reflexivity. }
    split; [apply A|]. intros Hin. exfalso. apply H2. unfold known_sig. cbn [In] in *. tauto.
  - destruct H.
Qed.

(** Framing *)
Lemma frame_eq sg c d rs body : frame_bytes (Frame sg c d rs body) = le32 sg ++ le32 c ++ le32 d ++ le32 rs ++ body.
Proof.
  unfold frame_bytes, emit, le32. rewrite !emit_LE.
  change (SpecModel.fr_body (Frame sg c d rs body)) with body. cbn [flat_map].
  change (emit1 (SpecWire.Raw body)) with body. rewrite app_nil_r. reflexivity.
Qed.
Lemma frame_length f : length (frame_bytes f) = 16 + length (fr_body f).
Proof.
  destruct f as [a b c d e]. rewrite frame_eq. unfold le32. rewrite !app_length, !le_bytes_length. reflexivity.
Qed.

Lemma rBytes_case n b :
  (exists e, rBytes n b = Err (e, [])) \/
  (exists x r, rBytes n b = OK (x, r) /\ b = x ++ r /\ N.of_nat (length x) = n).
Proof.
  unfold rBytes. destruct (N.of_nat (length b) <? n)%N eqn:E; [left; eauto|right].
  exists (firstn (N.to_nat n) b), (skipn (N.to_nat n) b). split; [reflexivity|].
  split; [symmetry; apply firstn_skipn|]. rewrite firstn_length_le by lia. lia.
Qed.
Lemma rNum_case k b :
  (exists e, rNum k b = Err (e, [])) \/
  (exists x r, rNum k b = OK (x, r) /\ b = le_bytes k x ++ r /\ (x < 2 ^ (8 * N.of_nat k))%N).
Proof.
  unfold rNum. destruct (rBytes_case (N.of_nat k) b) as [[e E]|(x & r & E & -> & Hl)]; rewrite E; cbn [obind];
    [left; eauto|right].
  exists (le_N x), r. split; [reflexivity|].
  assert (length x = k) by lia. subst k. rewrite le_bytes_le_N. split; [reflexivity|apply le_N_lt].
Qed.

Lemma raw_read_frame lz f c r : frame_chunk lz f c -> (fr_clen f + 4 < 2 ^ 32)%N ->
  raw_read lz (frame_bytes f ++ r) = OK (c, r).
Proof.
  destruct f as [sg cl dl rs body], c as [csg ccomp cp].
  intros ((H1 & H2 & H3 & H4 & H5) & H6 & H7 & H8) H9. cbn in H1, H2, H3, H4, H5, H6, H7, H8, H9. subst csg ccomp.
  rewrite frame_eq, <- !app_assoc. unfold raw_read.
  rewrite rNum4_app by exact H1. cbn [obind]. rewrite rNum4_app by exact H2. cbn [obind].
  rewrite rNum4_app by exact H3. cbn [obind]. rewrite rNum4_app by exact H4. cbn [obind].
  destruct (cl =? 0)%N eqn:E.
  - rewrite rBytes_app by exact H5. cbn [obind]. now subst cp.
  - destruct (2 ^ 32 <=? cl + 4)%N eqn:E2; [apply N.leb_le in E2; lia|].
    rewrite rBytes_app by exact H5. cbn [obind]. now rewrite H8.
Qed.
(** Every successful read is of a frame; otherwise an error, or the panic. *)
Lemma raw_read_case lz b :
  (exists e r, raw_read lz b = Err (e, r)) \/
  (exists f c r, raw_read lz b = OK (c, r) /\ b = frame_bytes f ++ r /\ frame_chunk lz f c /\ (fr_clen f + 4 < 2 ^ 32)%N) \/
  (raw_read lz b = Panic /\ exists sg cl r, b = le32 sg ++ le32 cl ++ r /\ f32 cl /\ (2 ^ 32 <= cl + 4)%N).
Proof.
  unfold raw_read.
  destruct (rNum_case 4 b) as [[e ->]|(sg & b1 & -> & -> & H1)]; cbn [obind]; [left; eauto; fail|].
  destruct (rNum_case 4 b1) as [[e ->]|(cl & b2 & -> & -> & H2)]; cbn [obind]; [left; eauto; fail|].
  destruct (rNum_case 4 b2) as [[e ->]|(dl & b3 & -> & -> & H3)]; cbn [obind]; [left; eauto; fail|].
  destruct (rNum_case 4 b3) as [[e ->]|(rs & b4 & -> & -> & H4)]; cbn [obind]; [left; eauto; fail|].
  destruct (cl =? 0)%N eqn:E.
  - destruct (rBytes_case dl b4) as [[e ->]|(p & r & -> & -> & H5)]; cbn [obind]; [left; eauto; fail|].
    right; left. exists (Frame sg cl dl rs p), (RbxlModel.Raw sg false p), r. rewrite frame_eq, <- !app_assoc.
    split; [reflexivity|]. split; [reflexivity|]. unfold frame_chunk, frame_ok. cbn. rewrite E.
    apply N.eqb_eq in E. subst cl. repeat split; auto.
  - destruct (2 ^ 32 <=? cl + 4)%N eqn:E2.
    + right; right. split; [reflexivity|]. exists sg, cl. eexists. split; [reflexivity|].
      split; [exact H2|]. now apply N.leb_le.
    + apply N.leb_gt in E2.
      destruct (rBytes_case cl b4) as [[e ->]|(p & r & -> & -> & H5)]; cbn [obind]; [left; eauto; fail|].
      destruct (lz_dec lz dl p) as [d|] eqn:E3; [|left; eauto].
      right; left. exists (Frame sg cl dl rs p), (RbxlModel.Raw sg true d), r. rewrite frame_eq, <- !app_assoc.
      split; [reflexivity|]. split; [reflexivity|]. unfold frame_chunk, frame_ok. cbn. rewrite E.
      repeat split; auto.
Qed.

Lemma raw_write_frame lz c b : lossless lz -> f32 (raw_sig c) -> len32 (raw_payload c) ->
  raw_write lz c = OK b ->
  exists f, b = frame_bytes f /\ frame_chunk lz f c /\ (fr_clen f + 4 < 2 ^ 32)%N /\
    fr_reserved f = 0%N /\ fr_dlen f = N.of_nat (length (raw_payload c)).
Proof.
  intros [Hlz _] Hs Hp. destruct c as [sg comp p]. cbn in Hs, Hp. unfold raw_write. cbn [raw_compressed raw_payload raw_sig].
  destruct comp.
  - destruct (lz_enc lz p) as [d|] eqn:E; [|discriminate]. intros [= <-].
    destruct (Hlz _ _ E) as (H1 & H2 & H3 & H4).
    exists (Frame sg (N.of_nat (length d)) (N.of_nat (length p)) 0 d). rewrite frame_eq. split; [reflexivity|].
    unfold frame_chunk, frame_ok. cbn.
    destruct (N.of_nat (length d) =? 0)%N eqn:E0; [destruct d; [congruence|cbn in E0; lia]|].
    unfold f32. repeat split; auto; change (2 ^ 32)%N with 4294967296%N in *; lia.
  - intros [= <-]. exists (Frame sg 0 (N.of_nat (length p)) 0 p). rewrite frame_eq. split; [reflexivity|].
    unfold frame_chunk, frame_ok, f32. cbn. repeat split; auto.
Qed.
