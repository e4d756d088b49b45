(** RbxlValuesProofs.v - lemmas about single values (rbxl/values.go). *)
From Verif Require Import Base RbxlValues RbxlWordProofs SpecValues.

Lemma int_range_in bits n : int_range bits n <-> in_i bits n = true.
Proof. unfold int_range, in_i. lia. Qed.

(** ** Reading what was written *)
Lemma rd_le_app k x r : (x < 2 ^ (8 * N.of_nat k))%N -> rd_le k (le_bytes k x ++ r) = OK (x, r).
Proof.
  intros H. unfold rd_le. rewrite app_length, le_bytes_length.
  destruct (k + length r <? k)%nat eqn:E; [lia|].
  rewrite firstn_app_exact, skipn_app_exact by apply le_bytes_length.
  now rewrite le_N_le_bytes_small.
Qed.
Lemma rd_be_app k x r : (x < 2 ^ (8 * N.of_nat k))%N -> rd_be k (be_bytes k x ++ r) = OK (x, r).
Proof.
  intros H. unfold rd_be. rewrite app_length, be_bytes_length.
  destruct (k + length r <? k)%nat eqn:E; [lia|].
  rewrite firstn_app_exact, skipn_app_exact by apply be_bytes_length.
  now rewrite be_N_be_bytes_small.
Qed.
Lemma be_word_app k x r : (x < 2 ^ (8 * N.of_nat k))%N -> be_word k (be_bytes k x ++ r) = OK x.
Proof.
  intros H. unfold be_word. rewrite app_length, be_bytes_length.
  destruct (k + length r <? k)%nat eqn:E; [lia|].
  rewrite firstn_app_exact by apply be_bytes_length. now rewrite be_N_be_bytes_small.
Qed.
Lemma le_word_app k x r : (x < 2 ^ (8 * N.of_nat k))%N -> le_word k (le_bytes k x ++ r) = OK x.
Proof.
  intros H. unfold le_word. rewrite app_length, le_bytes_length.
  destruct (k + length r <? k)%nat eqn:E; [lia|].
  rewrite firstn_app_exact by apply le_bytes_length. now rewrite le_N_le_bytes_small.
Qed.
Lemma clc_ok n b : n <= length b -> checkLengthConst n b = OK n.
Proof. intros. unfold checkLengthConst. destruct (length b <? n)%nat eqn:E; [lia|reflexivity]. Qed.

Lemma b_float_length f : length (b_float f) = 4. Proof. apply be_bytes_length. Qed.
Lemma b_int_length f : length (b_int f) = 4. Proof. apply be_bytes_length. Qed.
Lemma b_int64_length f : length (b_int64 f) = 8. Proof. apply be_bytes_length. Qed.
Lemma b_vec3_length v : length (b_vec3 v) = 12.
Proof. unfold b_vec3. now rewrite !app_length, !b_float_length. Qed.
Lemma b_string_length s : length (b_string s) = 4 + length s.
Proof. unfold b_string, le32. now rewrite app_length, le_bytes_length. Qed.

Lemma fb_float_app f r : f32 f -> fb_float (b_float f ++ r) = OK (f, 4).
Proof.
  intros H. unfold fb_float. rewrite clc_ok by (rewrite app_length, b_float_length; unfold zFloat, zf32; lia).
  cbn [obind]. unfold b_float, be32.
  rewrite be_word_app by (now apply encodeRobloxFloat_lt).
  cbn [obind]. now rewrite decode_encodeRobloxFloat.
Qed.
Lemma fb_int_app n r : int_range 32 n -> fb_int (b_int n ++ r) = OK (n, 4).
Proof.
  intros H. unfold fb_int. rewrite clc_ok by (rewrite app_length, b_int_length; unfold zInt, zi32; lia).
  apply int_range_in in H.
  cbn [obind]. unfold b_int, be32, encodeZigzag32, decodeZigzag32.
  rewrite be_word_app by (apply (encodeZigzag_lt 32); [lia|exact H]).
  cbn [obind]. now rewrite decode_encodeZigzag.
Qed.
Lemma fb_int64_app n r : int_range 64 n -> fb_int64 (b_int64 n ++ r) = OK (n, 8).
Proof.
  intros H. unfold fb_int64. rewrite clc_ok by (rewrite app_length, b_int64_length; unfold zInt64; lia).
  apply int_range_in in H.
  cbn [obind]. unfold b_int64, be64, encodeZigzag64, decodeZigzag64.
  rewrite be_word_app by (apply (encodeZigzag_lt 64); [lia|exact H]).
  cbn [obind]. now rewrite decode_encodeZigzag.
Qed.
Lemma adv_app {A} (f : bytes -> res (A * nat)) x n w r :
  f (w ++ r) = OK (x, n) -> length w = n -> adv f (w ++ r) = OK (x, r).
Proof.
  intros H <-. unfold adv. rewrite H, app_length.
  destruct (length w + length r <? length w)%nat eqn:E; [lia|].
  now rewrite skipn_app_exact.
Qed.
Lemma adv_float_app f r : f32 f -> adv fb_float (b_float f ++ r) = OK (f, r).
Proof. intros. eapply adv_app; [now apply fb_float_app | apply b_float_length]. Qed.
Lemma adv_int_app f r : int_range 32 f -> adv fb_int (b_int f ++ r) = OK (f, r).
Proof. intros. eapply adv_app; [now apply fb_int_app | apply b_int_length]. Qed.
Lemma adv_int64_app f r : int_range 64 f -> adv fb_int64 (b_int64 f ++ r) = OK (f, r).
Proof. intros. eapply adv_app; [now apply fb_int64_app | apply b_int64_length]. Qed.
Lemma fb_vec3_app v r : wf_vec3 v -> fb_vec3 (b_vec3 v ++ r) = OK (v, 12).
Proof.
  intros (Hx & Hy & Hz). unfold fb_vec3.
  rewrite clc_ok by (rewrite app_length, b_vec3_length; unfold zVector3, zFloat, zf32; lia).
  cbn [obind]. unfold b_vec3. rewrite <- !app_assoc.
  rewrite adv_float_app by auto. cbn [obind].
  rewrite adv_float_app by auto. cbn [obind].
  rewrite adv_float_app by auto. cbn [obind]. now destruct v.
Qed.
Lemma fb_vec2_app x y r : f32 x -> f32 y -> fb_vec2 ((b_float x ++ b_float y) ++ r) = OK ((x, y), 8).
Proof.
  intros Hx Hy. unfold fb_vec2.
  rewrite clc_ok by (rewrite !app_length, !b_float_length; unfold zVector2, zFloat, zf32; lia).
  cbn [obind]. rewrite <- !app_assoc.
  rewrite adv_float_app by auto. cbn [obind].
  rewrite adv_float_app by auto. reflexivity.
Qed.
Lemma adv_vec2_app x y r : f32 x -> f32 y -> adv fb_vec2 ((b_float x ++ b_float y) ++ r) = OK ((x, y), r).
Proof.
  intros. eapply adv_app; [now apply fb_vec2_app|]. now rewrite app_length, !b_float_length.
Qed.
Lemma fb_pos_app v r : wf_vec3 v -> fb_pos (b_vec3 v ++ r) = OK v.
Proof. intros. unfold fb_pos. now rewrite fb_vec3_app. Qed.

Lemma cla_app t n w r : (N.of_nat n < 2 ^ 32)%N -> length w = field_size t * n ->
  checkLengthArray t ((le32 (N.of_nat n) ++ w) ++ r) = OK (w ++ r, n).
Proof.
  intros Hn Hw. unfold checkLengthArray, zArrayLen, le32.
  rewrite <- app_assoc, firstn_app_exact, skipn_app_exact by apply le_bytes_length.
  rewrite le_N_le_bytes_small by exact Hn. rewrite !app_length, le_bytes_length.
  destruct (4 + (length w + length r) <? 4)%nat eqn:E; [lia|].
  destruct (N.of_nat (4 + (length w + length r)) <?
    N.of_nat 4 + N.of_nat (field_size t) * N.of_nat n)%N eqn:E2; [lia|].
  now rewrite Nat2N.id.
Qed.
Lemma fb_string_app s r : len32 s -> fb_string (b_string s ++ r) = OK (s, 4 + length s).
Proof.
  intros H. unfold fb_string, b_string. rewrite cla_app; [|exact H|unfold field_size, zb; lia].
  cbn [obind]. rewrite firstn_app_exact by reflexivity.
  rewrite app_length. replace (length s - (length s + length r)) with 0 by lia.
  cbn [repeat]. now rewrite app_nil_r.
Qed.
Lemma rd_floats_app l r : Forall f32 l -> rd_floats (length l) (b_rotation l ++ r) = OK (l, r).
Proof.
  induction 1 as [|x l Hx Hl IH]; cbn [length rd_floats b_rotation flat_map]; [reflexivity|].
  rewrite <- app_assoc. unfold le32 at 1. rewrite rd_le_app by exact Hx. cbn [obind].
  change (flat_map le32 l) with (b_rotation l). rewrite IH. reflexivity.
Qed.
Lemma rd_quat_app x y z w r : f32 x -> f32 y -> f32 z -> f32 w ->
  rd_quat (b_quat x y z w ++ r) = OK ((x, y, z, w), r).
Proof.
  intros. unfold rd_quat, b_quat, le32. rewrite <- !app_assoc.
  do 4 (rewrite rd_le_app by assumption; cbn [obind]). reflexivity.
Qed.
Lemma b_nsk_length k : length (b_nsk k) = 12.
Proof. unfold b_nsk, le32. now rewrite !app_length, !le_bytes_length. Qed.
Lemma b_csk_length k : length (b_csk k) = 20.
Proof. unfold b_csk, le32. now rewrite !app_length, !le_bytes_length. Qed.
Lemma flat_map_length_const {A B} (f : A -> list B) k l :
  (forall x, length (f x) = k) -> length (flat_map f l) = k * length l.
Proof. intros H. induction l as [|x l IH]; cbn; [lia|]. rewrite app_length, H, IH. lia. Qed.
Lemma rd_nsks_app ks r :
  Forall (fun k => f32 (ns_time k) /\ f32 (ns_value k) /\ f32 (ns_env k)) ks ->
  rd_nsks (length ks) (flat_map b_nsk ks ++ r) = OK ks.
Proof.
  induction 1 as [|k ks (H1 & H2 & H3) Hl IH]; cbn [length rd_nsks flat_map]; [reflexivity|].
  unfold b_nsk at 1. unfold le32. rewrite <- !app_assoc.
  do 3 (rewrite rd_le_app by assumption; cbn [obind]). rewrite IH. now destruct k.
Qed.
Lemma rd_csks_app ks r :
  Forall (fun k => f32 (cs_time k) /\ f32 (cs_r k) /\ f32 (cs_g k) /\ f32 (cs_b k) /\ f32 (cs_env k)) ks ->
  rd_csks (length ks) (flat_map b_csk ks ++ r) = OK ks.
Proof.
  induction 1 as [|k ks (H1 & H2 & H3 & H4 & H5) Hl IH]; cbn [length rd_csks flat_map]; [reflexivity|].
  unfold b_csk at 1. unfold le32. rewrite <- !app_assoc.
  do 5 (rewrite rd_le_app by assumption; cbn [obind]). rewrite IH. now destruct k.
Qed.

Lemma b_rotation_length l : length (b_rotation l) = 4 * length l.
Proof. apply flat_map_length_const. intros. apply le_bytes_length. Qed.

(** ** Declared lengths *)
Lemma to_bytes_length v : wf_value v -> length (to_bytes v) = bytes_len v.
Proof.
  destruct v; cbn [to_bytes bytes_len wf_value]; intros Hwf;
    unfold le16, le32, be32, le64, be64, b_quat, b_pp, le32, appendFlags;
    rewrite ?app_length, ?b_float_length, ?b_int_length, ?b_int64_length, ?b_vec3_length,
      ?b_string_length, ?le_bytes_length, ?be_bytes_length; try reflexivity.
  - (* CFrame *) cbn [length cond_size]. destruct Hwf as (H9 & _ & _).
    destruct (Byte.eqb special x00); rewrite ?app_length, b_vec3_length, ?b_rotation_length, ?H9; reflexivity.
  - cbn [length cond_size].
    destruct (Byte.eqb special x00); rewrite ?app_length, b_vec3_length, ?le_bytes_length; reflexivity.
  - rewrite (flat_map_length_const b_nsk 12) by apply b_nsk_length. reflexivity.
  - rewrite (flat_map_length_const b_csk 20) by apply b_csk_length. reflexivity.
  - cbn [length cond_size].
    destruct (Byte.eqb custom x00); rewrite ?app_length, ?le_bytes_length; reflexivity.
  - unfold zArrayLen, zu16. cbn [length]. lia.
Qed.

(** ** C06: decode after encode *)
Lemma clc_b2b t n w r : t = n -> n <= length w -> checkLengthConst n (w ++ r) = OK t.
Proof. intros -> H. apply clc_ok. rewrite app_length. lia. Qed.

Lemma clcond_app t c w r :
  length (c :: w) = cond_size t c ->
  checkLengthCond t ((c :: w) ++ r) = OK (c, w ++ r, cond_size t c).
Proof.
  intros H. unfold checkLengthCond. cbn [app].
  destruct (length (c :: w ++ r) <? cond_size t c)%nat eqn:E; [|reflexivity].
  rewrite <- H in E. apply Nat.ltb_lt in E. cbn [length] in E. rewrite app_length in E. lia.
Qed.

Lemma toN16_lt z : (toN 16 z < 2 ^ (8 * N.of_nat 2))%N.
Proof. apply (toN_lt 16). lia. Qed.

Ltac sizes := unfold zRect, zUDim, zUDim2, zRay, zFaces, zAxes, zBrickColor, zColor3, zVector2, zVector3,
  zVector2int16, zToken, zReference, zVector3int16, zNumberRange, zRect, zColor3uint8, zInt64,
  zSharedString, zUniqueId, zDouble, zFloat, zInt, zf32, zi32, zb, zArrayLen in *.
Ltac lens := rewrite ?app_length, ?b_float_length, ?b_int_length, ?b_int64_length, ?b_vec3_length,
  ?b_string_length, ?le_bytes_length, ?be_bytes_length; sizes; cbn [length]; try lia.

Lemma readFlag_faces r t b l o f :
  let x := match appendFlags [r; t; b; l; o; f] with [x] => x | _ => x00 end in
  (readFlag x 0, readFlag x 1, readFlag x 2, readFlag x 3, readFlag x 4, readFlag x 5) = (r, t, b, l, o, f).
Proof. destruct r, t, b, l, o, f; reflexivity. Qed.
Lemma readFlag_axes a b c :
  let x := match appendFlags [a; b; c] with [x] => x | _ => x00 end in
  (readFlag x 0, readFlag x 1, readFlag x 2) = (a, b, c).
Proof. destruct a, b, c; reflexivity. Qed.

Ltac app_step :=
  first [ rewrite adv_float_app by assumption
        | rewrite adv_int_app by assumption
        | rewrite adv_int64_app by assumption
        | rewrite rd_le_app by (first [assumption | apply toN16_lt])
        | rewrite rd_be_app by assumption ];
  cbn [obind].

Lemma from_to_bytes v r : wf_value v ->
  from_bytes (vtype v) (to_bytes v ++ r) = OK (stored v, bytes_len v).
Proof.
  intros Hwf. pose proof (to_bytes_length v Hwf) as Hlen.
  destruct v; cbn [to_bytes vtype stored from_bytes wf_value] in *.
  - rewrite fb_string_app by assumption. reflexivity.
  - destruct b; reflexivity.
  - rewrite fb_int_app by assumption. reflexivity.
  - rewrite fb_float_app by assumption. reflexivity.
  - rewrite clc_ok by (unfold le64; lens). cbn [obind]. unfold le64.
    rewrite le_word_app by assumption. reflexivity.
  - destruct Hwf. rewrite clc_ok by lens. cbn [obind]. rewrite <- app_assoc.
    repeat app_step. reflexivity.
  - destruct Hwf as (?&?&?&?). rewrite clc_ok by lens. cbn [obind]. rewrite <- !app_assoc.
    repeat app_step. reflexivity.
  - destruct Hwf as (?&?&?&?&?&?). unfold le32 in *. rewrite clc_ok by lens. cbn [obind]. rewrite <- !app_assoc.
    repeat app_step. reflexivity.
  - destruct right, top, back, left, bottom, front; reflexivity.
  - destruct x, y, z; reflexivity.
  - unfold be32 in *. rewrite clc_ok by lens. cbn [obind]. rewrite be_word_app by assumption. reflexivity.
  - destruct Hwf as (?&?&?). rewrite clc_ok by lens. cbn [obind]. rewrite <- !app_assoc.
    repeat app_step. reflexivity.
  - destruct Hwf as (?&?). rewrite fb_vec2_app by assumption. reflexivity.
  - rewrite fb_vec3_app by assumption. reflexivity.
  - destruct Hwf as (Hx&Hy). apply int_range_in in Hx, Hy.
    unfold le16 in *. rewrite clc_ok by lens. cbn [obind]. rewrite <- !app_assoc.
    repeat app_step. rewrite !ofN_toN by (auto; lia). reflexivity.
  - destruct Hwf as (H9 & Hr & Hp). rewrite clcond_app by exact Hlen. cbn [obind].
    destruct (Byte.eqb special x00) eqn:E.
    + rewrite <- app_assoc. rewrite <- H9 at 1. rewrite rd_floats_app by assumption. cbn [obind].
      rewrite fb_pos_app by assumption. reflexivity.
    + cbn [app obind]. rewrite fb_pos_app by assumption. reflexivity.
  - destruct Hwf as (?&?&?&?& Hp). rewrite clcond_app by exact Hlen. cbn [obind].
    destruct (Byte.eqb special x00) eqn:E.
    + rewrite <- app_assoc. rewrite rd_quat_app by assumption. cbn [obind].
      rewrite fb_pos_app by assumption. reflexivity.
    + cbn [app obind]. rewrite fb_pos_app by assumption. reflexivity.
  - unfold be32 in *. rewrite clc_ok by lens. cbn [obind]. rewrite be_word_app by assumption. reflexivity.
  - rewrite clc_ok by lens. cbn [obind]. apply int_range_in in Hwf. unfold b_int, be32, encodeZigzag32, decodeZigzag32.
    rewrite be_word_app by (apply (encodeZigzag_lt 32); [lia|exact Hwf]).
    cbn [obind]. now rewrite decode_encodeZigzag.
  - destruct Hwf as (Hx&Hy&Hz). apply int_range_in in Hx, Hy, Hz.
    unfold le16 in *. rewrite clc_ok by lens. cbn [obind]. rewrite <- !app_assoc.
    repeat app_step. rewrite !ofN_toN by (auto; lia). reflexivity.
  - destruct Hwf as [Hl Hk]. rewrite cla_app;
      [|exact Hl| rewrite (flat_map_length_const b_nsk 12) by apply b_nsk_length; reflexivity].
    cbn [obind]. rewrite rd_nsks_app by assumption. reflexivity.
  - destruct Hwf as [Hl Hk]. rewrite cla_app;
      [|exact Hl| rewrite (flat_map_length_const b_csk 20) by apply b_csk_length; reflexivity].
    cbn [obind]. rewrite rd_csks_app by assumption. reflexivity.
  - destruct Hwf as (?&?). unfold le32 in *. rewrite clc_ok by lens. cbn [obind]. rewrite <- !app_assoc.
    repeat app_step. reflexivity.
  - destruct Hwf as (?&?&?&?). rewrite clc_ok by lens. cbn [obind].
    rewrite <- (app_assoc (b_float minx ++ b_float miny)).
    rewrite adv_vec2_app by assumption. cbn [obind].
    rewrite adv_vec2_app by assumption. reflexivity.
  - destruct Hwf as (?&?&?&?&?). rewrite clcond_app by exact Hlen. cbn [obind].
    destruct (Byte.eqb custom x00) eqn:E; [reflexivity|].
    unfold b_pp, le32. rewrite <- !app_assoc. repeat app_step. reflexivity.
  - reflexivity.
  - rewrite fb_int64_app by assumption. reflexivity.
  - unfold be32 in *. rewrite clc_ok by lens. cbn [obind]. rewrite be_word_app by assumption. reflexivity.
  - destruct Hwf as (?&?&?). unfold be32 in *. rewrite clc_ok by lens. cbn [obind]. rewrite <- !app_assoc.
    repeat app_step. reflexivity.
  - destruct Hwf as (?&?&?). rewrite <- !app_assoc. rewrite fb_string_app by assumption. cbn [obind].
    rewrite skipn_app_exact by apply b_string_length.
    unfold le16. rewrite app_length, le_bytes_length.
    destruct (2 + length ([style] ++ b_string cached ++ r) <? 2)%nat eqn:E; [lia|].
    rewrite rd_le_app by assumption. cbn [obind app length].
    cbn [Nat.ltb Nat.leb]. rewrite fb_string_app by assumption. cbn [obind bytes_len].
    sizes. unfold zu16. do 2 f_equal.
Qed.

(** ** C08: total and sound on arbitrary input *)
Lemma rd_le_case k b : k <= length b ->
  exists x r, rd_le k b = OK (x, r) /\ b = le_bytes k x ++ r /\ (x < 2 ^ (8 * N.of_nat k))%N.
Proof.
  intros H. exists (le_N (firstn k b)), (skipn k b). unfold rd_le.
  destruct (length b <? k)%nat eqn:E; [lia|].
  assert (Hk : length (firstn k b) = k) by (rewrite firstn_length; lia).
  repeat split.
  - rewrite <- Hk at 1. rewrite le_bytes_le_N. symmetry. apply firstn_skipn.
  - pose proof (le_N_lt (firstn k b)) as Hlt. now rewrite Hk in Hlt.
Qed.
Lemma rd_be_case k b : k <= length b ->
  exists x r, rd_be k b = OK (x, r) /\ b = be_bytes k x ++ r /\ (x < 2 ^ (8 * N.of_nat k))%N.
Proof.
  intros H. exists (be_N (firstn k b)), (skipn k b). unfold rd_be.
  destruct (length b <? k)%nat eqn:E; [lia|].
  assert (Hk : length (firstn k b) = k) by (rewrite firstn_length; lia).
  repeat split.
  - rewrite <- Hk at 1. rewrite be_bytes_be_N. symmetry. apply firstn_skipn.
  - pose proof (be_N_lt (firstn k b)) as Hlt. now rewrite Hk in Hlt.
Qed.
Lemma be_word_case k b : k <= length b ->
  exists x r, be_word k b = OK x /\ b = be_bytes k x ++ r /\ (x < 2 ^ (8 * N.of_nat k))%N.
Proof.
  intros H. destruct (rd_be_case k b H) as (x & r & E & Hb & Hx).
  exists x, r. repeat split; auto. unfold be_word, rd_be in *.
  destruct (length b <? k)%nat; congruence.
Qed.
Lemma le_word_case k b : k <= length b ->
  exists x r, le_word k b = OK x /\ b = le_bytes k x ++ r /\ (x < 2 ^ (8 * N.of_nat k))%N.
Proof.
  intros H. destruct (rd_le_case k b H) as (x & r & E & Hb & Hx).
  exists x, r. repeat split; auto. unfold le_word, rd_le in *.
  destruct (length b <? k)%nat; congruence.
Qed.
Lemma adv_float_case b : 4 <= length b ->
  exists x r, adv fb_float b = OK (x, r) /\ b = b_float x ++ r /\ f32 x.
Proof.
  intros H. destruct (be_word_case 4 b H) as (w & r & E & Hb & Hw).
  change (2 ^ (8 * N.of_nat 4))%N with (2 ^ 32)%N in Hw.
  exists (decodeRobloxFloat w), r.
  assert (HB : b_float (decodeRobloxFloat w) = be_bytes 4 w)
    by (unfold b_float, be32; now rewrite encode_decodeRobloxFloat).
  assert (Hf : f32 (decodeRobloxFloat w)) by now apply decodeRobloxFloat_lt.
  rewrite Hb, <- HB. split; [now apply adv_float_app | auto].
Qed.
Lemma adv_int_case b : 4 <= length b ->
  exists x r, adv fb_int b = OK (x, r) /\ b = b_int x ++ r /\ int_range 32 x.
Proof.
  intros H. destruct (be_word_case 4 b H) as (w & r & E & Hb & Hw).
  destruct (encode_decodeZigzag 32 w ltac:(lia) Hw) as [Hr He].
  exists (decodeZigzag 32 w), r.
  assert (HB : b_int (decodeZigzag 32 w) = be_bytes 4 w)
    by (unfold b_int, be32, encodeZigzag32; now rewrite He).
  apply int_range_in in Hr.
  rewrite Hb, <- HB. split; [now apply adv_int_app | auto].
Qed.
Lemma adv_int64_case b : 8 <= length b ->
  exists x r, adv fb_int64 b = OK (x, r) /\ b = b_int64 x ++ r /\ int_range 64 x.
Proof.
  intros H. destruct (be_word_case 8 b H) as (w & r & E & Hb & Hw).
  destruct (encode_decodeZigzag 64 w ltac:(lia) Hw) as [Hr He].
  exists (decodeZigzag 64 w), r.
  assert (HB : b_int64 (decodeZigzag 64 w) = be_bytes 8 w)
    by (unfold b_int64, be64, encodeZigzag64; now rewrite He).
  apply int_range_in in Hr.
  rewrite Hb, <- HB. split; [now apply adv_int64_app | auto].
Qed.
Lemma clc_case n b : (exists e, checkLengthConst n b = Err e) \/
  (checkLengthConst n b = OK n /\ n <= length b).
Proof.
  unfold checkLengthConst. destruct (length b <? n)%nat eqn:E; [left; eauto | right; split; [auto|lia]].
Qed.
Lemma adv_vec3_case b : 12 <= length b ->
  exists v r, fb_vec3 b = OK (v, 12) /\ b = b_vec3 v ++ r /\ wf_vec3 v.
Proof.
  intros H.
  destruct (adv_float_case b ltac:(lia)) as (x & r1 & E1 & H1 & Hx).
  assert (L1 : length b = 4 + length r1) by (rewrite H1, app_length, b_float_length; reflexivity).
  destruct (adv_float_case r1 ltac:(lia)) as (y & r2 & E2 & H2 & Hy).
  assert (L2 : length r1 = 4 + length r2) by (rewrite H2, app_length, b_float_length; reflexivity).
  destruct (adv_float_case r2 ltac:(lia)) as (z & r3 & E3 & H3 & Hz).
  exists (Vec3 x y z), r3.
  assert (b = b_vec3 (Vec3 x y z) ++ r3) as Hb
    by (unfold b_vec3; cbn [v3x v3y v3z]; rewrite <- !app_assoc, <- H3, <- H2; exact H1).
  assert (wf_vec3 (Vec3 x y z)) by (repeat split; assumption).
  split; [|split; assumption]. rewrite Hb. now apply fb_vec3_app.
Qed.
Lemma fb_pos_case b : 12 <= length b ->
  exists v r, fb_pos b = OK v /\ b = b_vec3 v ++ r /\ wf_vec3 v.
Proof.
  intros H. destruct (adv_vec3_case b H) as (v & r & E & Hb & Hv).
  exists v, r. unfold fb_pos. rewrite E. auto.
Qed.
Lemma adv_vec2_case b : 8 <= length b ->
  exists x y r, adv fb_vec2 b = OK ((x, y), r) /\ b = (b_float x ++ b_float y) ++ r /\ f32 x /\ f32 y.
Proof.
  intros H.
  destruct (adv_float_case b ltac:(lia)) as (x & r1 & E1 & H1 & Hx).
  assert (L1 : length b = 4 + length r1) by (rewrite H1, app_length, b_float_length; reflexivity).
  destruct (adv_float_case r1 ltac:(lia)) as (y & r2 & E2 & H2 & Hy).
  exists x, y, r2.
  assert (Hb : b = (b_float x ++ b_float y) ++ r2) by (rewrite <- app_assoc, <- H2; exact H1).
  split; [|auto]. rewrite Hb. now apply adv_vec2_app.
Qed.
Lemma cla_case t b :
  (exists e, checkLengthArray t b = Err e) \/
  (exists n r, checkLengthArray t b = OK (r, n) /\ b = le32 (N.of_nat n) ++ r /\
     (N.of_nat n < 2 ^ 32)%N /\ field_size t * n <= length r).
Proof.
  unfold checkLengthArray. sizes.
  destruct (length b <? 4)%nat eqn:E; [left; eauto|].
  destruct (_ <? _)%N eqn:E2; [left; eauto|]. right.
  assert (Hk : length (firstn 4 b) = 4) by (rewrite firstn_length; lia).
  exists (N.to_nat (le_N (firstn 4 b))), (skipn 4 b).
  rewrite N2Nat.id. pose proof (le_N_lt (firstn 4 b)) as Hlt. rewrite Hk in Hlt.
  repeat split; try exact Hlt.
  - unfold le32. rewrite <- Hk at 1. rewrite le_bytes_le_N. symmetry. apply firstn_skipn.
  - rewrite skipn_length. lia.
Qed.
Lemma fb_string_case b :
  (exists e, fb_string b = Err e) \/
  (exists s r, fb_string b = OK (s, 4 + length s) /\ b = b_string s ++ r /\ len32 s).
Proof.
  unfold fb_string.
  destruct (cla_case tString b) as [[e ->] | (n & r & -> & Hb & Hn & Hl)]; [left; eexists; reflexivity|].
  right. cbn [obind]. unfold field_size, zb in Hl.
  exists (firstn n r), (skipn n r).
  assert (Hk : length (firstn n r) = n) by (rewrite firstn_length; lia).
  replace (n - length r) with 0 by lia. cbn [repeat]. rewrite app_nil_r, Hk.
  repeat split.
  - unfold b_string. rewrite Hk, <- app_assoc, firstn_skipn. exact Hb.
  - unfold len32. now rewrite Hk.
Qed.
Lemma clcond_case t b :
  (exists e, checkLengthCond t b = Err e) \/
  (exists c r, checkLengthCond t b = OK (c, r, cond_size t c) /\ b = c :: r /\ cond_size t c <= S (length r)).
Proof.
  unfold checkLengthCond. destruct b as [|c r]; [left; eauto|].
  destruct (_ <? _)%nat eqn:E; [left; eauto|]. right. cbn [length] in E.
  exists c, r. repeat split; auto. lia.
Qed.
Lemma rd_floats_case n : forall b, 4 * n <= length b ->
  exists l r, rd_floats n b = OK (l, r) /\ b = b_rotation l ++ r /\ length l = n /\ Forall f32 l.
Proof.
  induction n as [|n IH]; intros b H; cbn [rd_floats].
  - exists [], b. auto.
  - destruct (rd_le_case 4 b ltac:(lia)) as (x & r & -> & Hb & Hx). cbn [obind].
    assert (L : length b = 4 + length r) by (rewrite Hb, app_length, le_bytes_length; reflexivity).
    destruct (IH r ltac:(lia)) as (l & r2 & -> & Hr & Hl & Hf). cbn [obind].
    exists (x :: l), r2. repeat split; cbn [length]; auto.
    cbn [b_rotation flat_map]. rewrite <- app_assoc. unfold le32 at 1.
    change (flat_map le32 l) with (b_rotation l). congruence.
Qed.
Lemma rd_quat_case b : 16 <= length b ->
  exists x y z w r, rd_quat b = OK ((x, y, z, w), r) /\ b = b_quat x y z w ++ r /\ f32 x /\ f32 y /\ f32 z /\ f32 w.
Proof.
  intros H.
  destruct (rd_floats_case 4 b ltac:(lia)) as (l & r & E & Hb & Hl & Hf).
  destruct l as [|x [|y [|z [|w [|]]]]]; try discriminate.
  exists x, y, z, w, r. inversion_clear Hf as [|? ? Hx Hf1]. inversion_clear Hf1 as [|? ? Hy Hf2].
  inversion_clear Hf2 as [|? ? Hz Hf3]. inversion_clear Hf3 as [|? ? Hw Hf4].
  assert (b = b_quat x y z w ++ r) as HB by (rewrite Hb; unfold b_quat; cbn [b_rotation flat_map]; now rewrite !app_nil_r, <- !app_assoc).
  split; [|auto]. rewrite HB. now apply rd_quat_app.
Qed.
Lemma rd_nsks_case n : forall b, 12 * n <= length b ->
  exists ks r, rd_nsks n b = OK ks /\ b = flat_map b_nsk ks ++ r /\ length ks = n /\
    Forall (fun k => f32 (ns_time k) /\ f32 (ns_value k) /\ f32 (ns_env k)) ks.
Proof.
  induction n as [|n IH]; intros b H; cbn [rd_nsks].
  - exists [], b. auto.
  - destruct (rd_floats_case 3 b ltac:(lia)) as (l & r & E & Hb & Hl & Hf).
    destruct l as [|x [|y [|z [|]]]]; try discriminate.
    inversion_clear Hf as [|? ? Hx Hf1]. inversion_clear Hf1 as [|? ? Hy Hf2].
    inversion_clear Hf2 as [|? ? Hz Hf3].
    assert (L : length b = 12 + length r) by (rewrite Hb, app_length, b_rotation_length; reflexivity).
    destruct (IH r ltac:(lia)) as (ks & r2 & E2 & Hr & Hk & Hks).
    exists (NSK x y z :: ks), r2.
    assert (HB : b = le32 x ++ le32 y ++ le32 z ++ r)
      by (rewrite Hb; cbn [b_rotation flat_map]; rewrite app_nil_r, <- !app_assoc; reflexivity).
    split; [|repeat split; cbn [length flat_map]; auto 10].
    + rewrite HB. unfold le32. do 3 (rewrite rd_le_app by assumption; cbn [obind]). now rewrite E2.
    + rewrite HB. unfold b_nsk at 1. cbn [ns_time ns_value ns_env]. rewrite <- !app_assoc, <- Hr. reflexivity.
Qed.
Lemma rd_csks_case n : forall b, 20 * n <= length b ->
  exists ks r, rd_csks n b = OK ks /\ b = flat_map b_csk ks ++ r /\ length ks = n /\
    Forall (fun k => f32 (cs_time k) /\ f32 (cs_r k) /\ f32 (cs_g k) /\ f32 (cs_b k) /\ f32 (cs_env k)) ks.
Proof.
  induction n as [|n IH]; intros b H; cbn [rd_csks].
  - exists [], b. auto.
  - destruct (rd_floats_case 5 b ltac:(lia)) as (l & r & E & Hb & Hl & Hf).
    destruct l as [|x [|y [|z [|w [|u [|]]]]]]; try discriminate.
    inversion_clear Hf as [|? ? Hx Hf1]. inversion_clear Hf1 as [|? ? Hy Hf2].
    inversion_clear Hf2 as [|? ? Hz Hf3]. inversion_clear Hf3 as [|? ? Hw Hf4].
    inversion_clear Hf4 as [|? ? Hu Hf5].
    assert (L : length b = 20 + length r) by (rewrite Hb, app_length, b_rotation_length; reflexivity).
    destruct (IH r ltac:(lia)) as (ks & r2 & E2 & Hr & Hk & Hks).
    exists (CSK x y z w u :: ks), r2.
    assert (HB : b = le32 x ++ le32 y ++ le32 z ++ le32 w ++ le32 u ++ r)
      by (rewrite Hb; cbn [b_rotation flat_map]; rewrite app_nil_r, <- !app_assoc; reflexivity).
    split; [|repeat split; cbn [length flat_map]; auto 10].
    + rewrite HB. unfold le32. do 5 (rewrite rd_le_app by assumption; cbn [obind]). now rewrite E2.
    + rewrite HB. unfold b_csk at 1. cbn [cs_time cs_r cs_g cs_b cs_env]. rewrite <- !app_assoc, <- Hr. reflexivity.
Qed.

(** The result of decoding: a representable, canonical value of the right
    type whose encoding is what was read. *)
Definition good (t : tid) (b : bytes) (v : value) (n : nat) : Prop :=
  vtype v = t /\ wf_value v /\ stored v = v /\ n = bytes_len v /\ n <= length b /\
  (has_spare_bits t = false -> exists rest, b = to_bytes v ++ rest).

Definition total (t : tid) (b : bytes) : Prop :=
  (exists e, from_bytes t b = Err e) \/ (exists v n, from_bytes t b = OK (v, n) /\ good t b v n).

(** It is enough to exhibit the value the buffer starts with. *)
Lemma total_intro t b v r : vtype v = t -> wf_value v -> stored v = v -> b = to_bytes v ++ r -> total t b.
Proof.
  intros <- Hwf Hs ->. right. exists v, (bytes_len v).
  rewrite from_to_bytes, Hs by assumption. split; [reflexivity|].
  repeat split; auto.
  - rewrite app_length, to_bytes_length by assumption. lia.
  - eauto.
Qed.

Ltac clc := match goal with
  | |- context [checkLengthConst ?n ?b] =>
      let Hl := fresh "Hl" in
      destruct (clc_case n b) as [[? ->] | [_ Hl]]; [left; eexists; reflexivity|]
  end.
Ltac lenof Hb := let L := fresh "L" in
  pose proof (f_equal (@length byte) Hb) as L; rewrite ?app_length in L;
  rewrite ?b_float_length, ?b_int_length, ?b_int64_length, ?le_bytes_length, ?be_bytes_length in L.
Ltac take tac :=
  let x := fresh "x" in let r := fresh "r" in let Hb := fresh "Hb" in let Hx := fresh "Hx" in
  destruct tac as (x & r & _ & Hb & Hx); [sizes; lia|]; lenof Hb.

Lemma from_bytes_total t b : t <> tOptional -> total t b.
Proof.
  intros Ht.
  assert (HE : forall e, from_bytes t b = Err e -> total t b) by (intros; left; eauto).
  destruct t; try congruence; cbn [from_bytes] in HE.
  - destruct (fb_string_case b) as [[e E]|(s & r & _ & Hb & Hs)]; [eapply HE; now rewrite E|].
    now apply (total_intro _ _ (VString s) r).
  - destruct (clc_case zb b) as [[e E]|[E Hl]]; [eapply HE; now rewrite E|]. sizes.
    destruct b as [|x b]; [cbn in Hl; lia|]. right. eexists _, _. cbn. split; [reflexivity|].
    unfold good; cbn; sizes; repeat split; try lia; discriminate.
  - destruct (clc_case zInt b) as [[e E]|[E Hl]]; [eapply HE; unfold fb_int; now rewrite E|]. sizes.
    destruct (adv_int_case b Hl) as (x & r & _ & Hb & Hx). now apply (total_intro _ _ (VInt x) r).
  - destruct (clc_case zFloat b) as [[e E]|[E Hl]]; [eapply HE; unfold fb_float; now rewrite E|]. sizes.
    destruct (adv_float_case b Hl) as (x & r & _ & Hb & Hx). now apply (total_intro _ _ (VFloat x) r).
  - destruct (clc_case zDouble b) as [[e E]|[E Hl]]; [eapply HE; now rewrite E|]. sizes.
    destruct (le_word_case 8 b Hl) as (x & r & _ & Hb & Hx). now apply (total_intro _ _ (VDouble x) r).
  - destruct (clc_case zUDim b) as [[e E]|[E Hl]]; [eapply HE; now rewrite E|]. sizes.
    take (adv_float_case b). take (adv_int_case r).
    apply (total_intro _ _ (VUDim x x0) r0); cbn; auto. rewrite <- app_assoc. congruence.
  - destruct (clc_case zUDim2 b) as [[e E]|[E Hl]]; [eapply HE; now rewrite E|]. sizes.
    take (adv_float_case b). take (adv_float_case r). take (adv_int_case r0). take (adv_int_case r1).
    apply (total_intro _ _ (VUDim2 x x0 x1 x2) r2); cbn; auto. rewrite <- !app_assoc. congruence.
  - destruct (clc_case zRay b) as [[e E]|[E Hl]]; [eapply HE; now rewrite E|]. sizes.
    take (rd_le_case 4 b). take (rd_le_case 4 r). take (rd_le_case 4 r0). take (rd_le_case 4 r1).
    take (rd_le_case 4 r2). take (rd_le_case 4 r3).
    apply (total_intro _ _ (VRay x x0 x1 x2 x3 x4) r4); cbn [wf_value stored vtype to_bytes]; try (repeat split; assumption).
    rewrite <- !app_assoc. unfold le32. congruence.
  - destruct (clc_case zFaces b) as [[e E]|[E Hl]]; [eapply HE; now rewrite E|]. sizes.
    destruct b as [|x b]; [cbn in Hl; lia|]. right. eexists _, _. cbn. split; [reflexivity|].
    unfold good; cbn; sizes; repeat split; try lia; discriminate.
  - destruct (clc_case zAxes b) as [[e E]|[E Hl]]; [eapply HE; now rewrite E|]. sizes.
    destruct b as [|x b]; [cbn in Hl; lia|]. right. eexists _, _. cbn. split; [reflexivity|].
    unfold good; cbn; sizes; repeat split; try lia; discriminate.
  - destruct (clc_case zBrickColor b) as [[e E]|[E Hl]]; [eapply HE; now rewrite E|]. sizes.
    destruct (be_word_case 4 b Hl) as (x & r & _ & Hb & Hx). now apply (total_intro _ _ (VBrickColor x) r).
  - destruct (clc_case zColor3 b) as [[e E]|[E Hl]]; [eapply HE; now rewrite E|]. sizes.
    take (adv_float_case b). take (adv_float_case r). take (adv_float_case r0).
    apply (total_intro _ _ (VColor3 x x0 x1) r1); cbn; auto. rewrite <- !app_assoc. congruence.
  - destruct (clc_case zVector2 b) as [[e E]|[E Hl]]; [eapply HE; unfold fb_vec2; now rewrite E|]. sizes.
    take (adv_float_case b). take (adv_float_case r).
    apply (total_intro _ _ (VVector2 x x0) r0); cbn; auto. rewrite <- !app_assoc. congruence.
  - destruct (clc_case zVector3 b) as [[e E]|[E Hl]]; [eapply HE; unfold fb_vec3; now rewrite E|]. sizes.
    destruct (adv_vec3_case b ltac:(lia)) as (v & r & _ & Hb & Hv). now apply (total_intro _ _ (VVector3 v) r).
  - destruct (clc_case zVector2int16 b) as [[e E]|[E Hl]]; [eapply HE; now rewrite E|]. sizes.
    take (rd_le_case 2 b). take (rd_le_case 2 r).
    apply (total_intro _ _ (VVector2int16 (ofN 16 x) (ofN 16 x0)) r0); auto.
    + cbn -[Z.pow]. split; apply int_range_in, ofN_range; lia.
    + cbn [to_bytes]. unfold le16. rewrite !toN_ofN by (auto; lia). rewrite <- !app_assoc. congruence.
  - destruct (clcond_case tCFrame b) as [[e E]|(c & r & E & Hb & Hl)]; [eapply HE; now rewrite E|]. subst b.
    unfold cond_size in Hl. destruct (Byte.eqb c x00) eqn:Ec.
    + unfold zCFrameFull, zCFrameSp, zCondLen, zCFrameRo in Hl. sizes.
      destruct (rd_floats_case 9 r ltac:(lia)) as (l & r1 & _ & Hb & H9 & Hf).
      pose proof (f_equal (@length byte) Hb) as L. rewrite app_length, b_rotation_length, H9 in L.
      destruct (fb_pos_case r1 ltac:(lia)) as (p & r2 & _ & Hb2 & Hp).
      apply (total_intro _ _ (VCFrame c l p) r2); cbn; rewrite ?Ec; auto.
      rewrite <- app_assoc, <- Hb2, <- Hb. reflexivity.
    + unfold zCFrameShort, zCFrameSp, zCondLen in Hl. sizes.
      destruct (fb_pos_case r ltac:(lia)) as (p & r2 & _ & Hb2 & Hp).
      apply (total_intro _ _ (VCFrame c (repeat 0%N 9) p) r2); cbn [wf_value stored to_bytes vtype]; rewrite ?Ec; auto.
      * repeat split; try apply Hp. repeat constructor.
      * cbn. rewrite <- Hb2. reflexivity.
  - destruct (clcond_case tCFrameQuat b) as [[e E]|(c & r & E & Hb & Hl)]; [eapply HE; now rewrite E|]. subst b.
    unfold cond_size in Hl. destruct (Byte.eqb c x00) eqn:Ec.
    + unfold zCFrameQuatFull, zCFrameQuatSp, zCondLen, zCFrameQuatQ in Hl. sizes.
      destruct (rd_quat_case r ltac:(lia)) as (x & y & z & w & r1 & _ & Hb & Hx & Hy & Hz & Hw).
      pose proof (f_equal (@length byte) Hb) as L. unfold b_quat, le32 in L. rewrite !app_length, !le_bytes_length in L.
      destruct (fb_pos_case r1 ltac:(lia)) as (p & r2 & _ & Hb2 & Hp).
      apply (total_intro _ _ (VCFrameQuat c x y z w p) r2); cbn; rewrite ?Ec; auto.
      rewrite <- app_assoc, <- Hb2, <- Hb. reflexivity.
    + unfold zCFrameQuatShort, zCFrameQuatSp, zCondLen in Hl. sizes.
      destruct (fb_pos_case r ltac:(lia)) as (p & r2 & _ & Hb2 & Hp).
      apply (total_intro _ _ (VCFrameQuat c 0 0 0 0 p) r2); cbn [wf_value stored to_bytes vtype]; rewrite ?Ec; auto.
      * repeat split; try apply Hp.
      * cbn. rewrite <- Hb2. reflexivity.
  - destruct (clc_case zToken b) as [[e E]|[E Hl]]; [eapply HE; now rewrite E|]. sizes.
    destruct (be_word_case 4 b Hl) as (x & r & _ & Hb & Hx). now apply (total_intro _ _ (VToken x) r).
  - destruct (clc_case zReference b) as [[e E]|[E Hl]]; [eapply HE; now rewrite E|]. sizes.
    destruct (adv_int_case b Hl) as (x & r & _ & Hb & Hx). now apply (total_intro _ _ (VReference x) r).
  - destruct (clc_case zVector3int16 b) as [[e E]|[E Hl]]; [eapply HE; now rewrite E|]. sizes.
    take (rd_le_case 2 b). take (rd_le_case 2 r). take (rd_le_case 2 r0).
    apply (total_intro _ _ (VVector3int16 (ofN 16 x) (ofN 16 x0) (ofN 16 x1)) r1); auto.
    + cbn -[Z.pow]. repeat split; apply int_range_in, ofN_range; lia.
    + cbn [to_bytes]. unfold le16. rewrite !toN_ofN by (auto; lia). rewrite <- !app_assoc. congruence.
  - destruct (cla_case tNumberSequence b) as [[e E]|(n & r & E & Hb & Hn & Hl)]; [eapply HE; now rewrite E|].
    unfold field_size, zNumberSequenceKeypoint in Hl. sizes.
    destruct (rd_nsks_case n r ltac:(lia)) as (ks & r1 & _ & Hr & Hk & Hf).
    apply (total_intro _ _ (VNumberSequence ks) r1); auto.
    + split; [unfold len32; now rewrite Hk | exact Hf].
    + cbn [to_bytes]. rewrite Hk, <- app_assoc, <- Hr. exact Hb.
  - destruct (cla_case tColorSequence b) as [[e E]|(n & r & E & Hb & Hn & Hl)]; [eapply HE; now rewrite E|].
    unfold field_size, zColorSequenceKeypoint in Hl. sizes.
    destruct (rd_csks_case n r ltac:(lia)) as (ks & r1 & _ & Hr & Hk & Hf).
    apply (total_intro _ _ (VColorSequence ks) r1); auto.
    + split; [unfold len32; now rewrite Hk | exact Hf].
    + cbn [to_bytes]. rewrite Hk, <- app_assoc, <- Hr. exact Hb.
  - destruct (clc_case zNumberRange b) as [[e E]|[E Hl]]; [eapply HE; now rewrite E|]. sizes.
    take (rd_le_case 4 b). take (rd_le_case 4 r).
    apply (total_intro _ _ (VNumberRange x x0) r0); cbn [wf_value stored vtype to_bytes]; try (repeat split; assumption).
    rewrite <- !app_assoc. unfold le32. congruence.
  - destruct (clc_case zRect b) as [[e E]|[E Hl]]; [eapply HE; now rewrite E|]. sizes.
    take (adv_float_case b). take (adv_float_case r). take (adv_float_case r0). take (adv_float_case r1).
    apply (total_intro _ _ (VRect x x0 x1 x2) r2); cbn; auto. rewrite <- !app_assoc. congruence.
  - destruct (clcond_case tPhysicalProperties b) as [[e E]|(c & r & E & Hb & Hl)]; [eapply HE; now rewrite E|]. subst b.
    unfold cond_size in Hl. destruct (Byte.eqb c x00) eqn:Ec.
    + apply (total_intro _ _ (VPhysicalProperties c 0 0 0 0 0) r); cbn; rewrite ?Ec; auto.
      repeat split.
    + unfold zPhysicalPropertiesFull, zPhysicalPropertiesCP, zCondLen, zPhysicalPropertiesFields in Hl. sizes.
      take (rd_le_case 4 r). take (rd_le_case 4 r0). take (rd_le_case 4 r1). take (rd_le_case 4 r2).
      take (rd_le_case 4 r3).
      apply (total_intro _ _ (VPhysicalProperties c x x0 x1 x2 x3) r4); cbn [wf_value stored vtype to_bytes]; rewrite ?Ec; try (repeat split; assumption).
      unfold b_pp, le32. cbn [app]. rewrite <- !app_assoc. congruence.
  - destruct (clc_case zColor3uint8 b) as [[e E]|[E Hl]]; [eapply HE; now rewrite E|]. sizes.
    destruct b as [|x [|y [|z b]]]; cbn in Hl; try lia.
    now apply (total_intro _ _ (VColor3uint8 x y z) b).
  - destruct (clc_case zInt64 b) as [[e E]|[E Hl]]; [eapply HE; unfold fb_int64; now rewrite E|]. sizes.
    destruct (adv_int64_case b Hl) as (x & r & _ & Hb & Hx). now apply (total_intro _ _ (VInt64 x) r).
  - destruct (clc_case zSharedString b) as [[e E]|[E Hl]]; [eapply HE; now rewrite E|]. sizes.
    destruct (be_word_case 4 b Hl) as (x & r & _ & Hb & Hx). now apply (total_intro _ _ (VSharedString x) r).
  - destruct (clc_case zUniqueId b) as [[e E]|[E Hl]]; [eapply HE; now rewrite E|]. sizes.
    take (rd_be_case 4 b). take (rd_be_case 4 r). take (adv_int64_case r0).
    apply (total_intro _ _ (VUniqueId x1 x0 x) r1); cbn [wf_value stored vtype to_bytes]; [reflexivity | exact (conj Hx1 (conj Hx0 Hx)) | reflexivity |].
    unfold be32. rewrite <- !app_assoc. congruence.
  - destruct (fb_string_case b) as [[e E]|(s & r & E & Hb & Hs)]; [eapply HE; now rewrite E|].
    rewrite E in HE. cbn [obind] in HE. subst b.
    rewrite skipn_app_exact in HE by apply b_string_length.
    destruct (length r <? 2)%nat eqn:El; [eapply HE; reflexivity|].
    destruct (rd_le_case 2 r ltac:(lia)) as (w & r1 & E1 & Hb1 & Hw). rewrite E1 in HE. cbn [obind] in HE.
    destruct r1 as [|st r1]; [eapply HE; reflexivity|].
    cbn [length Nat.ltb Nat.leb] in HE.
    destruct (fb_string_case r1) as [[e2 E2]|(s2 & r2 & E2 & Hb2 & Hs2)].
    + eapply HE. rewrite E2. reflexivity.
    + apply (total_intro _ _ (VFont s w st s2) r2); auto.
      * repeat split; auto.
      * cbn [to_bytes]. unfold le16. rewrite <- !app_assoc. cbn [app]. rewrite <- Hb2, <- Hb1. reflexivity.
Qed.

Lemma from_bytes_sound t b v n : from_bytes t b = OK (v, n) -> good t b v n.
Proof.
  intros H. destruct (from_bytes_total t b) as [[e E]|(v' & n' & E & G)].
  - intros ->. discriminate.
  - congruence.
  - assert (v' = v /\ n' = n) as [-> ->] by (split; congruence). exact G.
Qed.

(** Decoding depends only on the bytes consumed. *)
Lemma from_bytes_extend t b s v n : from_bytes t b = OK (v, n) -> from_bytes t (b ++ s) = OK (v, n).
Proof.
  intros H. destruct (from_bytes_sound t b v n H) as (<- & Hwf & Hs & -> & Hl & He).
  destruct (has_spare_bits (vtype v)) eqn:E.
  - destruct (vtype v); try discriminate;
      (destruct b as [|x b]; [discriminate|]; cbn in H |- *; exact H).
  - destruct (He eq_refl) as [rest ->]. rewrite <- app_assoc.
    now rewrite from_to_bytes, Hs.
Qed.

Lemma truncated_rejected v p s :
  wf_value v -> to_bytes v = p ++ s -> s <> [] -> exists e, from_bytes (vtype v) p = Err e.
Proof.
  intros Hwf Hp Hs.
  destruct (from_bytes_total (vtype v) p) as [[e E]|(v' & n' & E & G)]; [destruct v; discriminate | eauto|].
  pose proof (from_bytes_extend _ _ s _ _ E) as Hx.
  rewrite <- Hp in Hx. rewrite <- (app_nil_r (to_bytes v)) in Hx.
  rewrite from_to_bytes in Hx by assumption.
  assert (n' = bytes_len v) by congruence.
  destruct G as (_ & _ & _ & _ & Hl & _).
  rewrite <- to_bytes_length in H by assumption. rewrite Hp, app_length in H.
  destruct s; [congruence|]. cbn in H. lia.
Qed.
