(** PropWire.v - C41, C42: the bytes written are the documented layout. *)
From Verif Require Import Base RbxlValues RbxlArrays SpecValues SpecArrays SpecWire
  RbxlWordProofs RbxlValuesProofs TransposeProofs RbxlArraysProofs.

Lemma N2b_mod n : N2b (n mod 256) = N2b n.
Proof. unfold N2b. rewrite N.mod_mod by lia. reflexivity. Qed.
Lemma digit_succ n i : digit n (S i) = digit (n / 256) i.
Proof.
  unfold digit. rewrite Nat2N.inj_succ, N.pow_succ_r', <- N.div_div; [reflexivity|lia|].
  apply N.pow_nonzero. lia.
Qed.
Lemma emit_LE w n : le_bytes w n = emit1 (LE w n).
Proof.
  cbn [emit1]. revert n; induction w as [|w IH]; intros n; [reflexivity|].
  change (le_bytes (S w) n) with (N2b n :: le_bytes w (n / 256)).
  cbn [seq map]. f_equal.
  - unfold digit. cbn [N.of_nat]. rewrite N.pow_0_r, N.div_1_r. symmetry. apply N2b_mod.
  - rewrite IH, <- seq_shift, map_map. apply map_ext. intros i. symmetry. apply digit_succ.
Qed.
Lemma emit_BE w n : be_bytes w n = emit1 (BE w n).
Proof.
  unfold be_bytes. rewrite emit_LE. cbn [emit1].
  apply nth_ext with (d := x00) (d' := x00).
  { now rewrite rev_length, !map_length, !seq_length. }
  intros i Hi. rewrite rev_length, map_length, seq_length in Hi.
  rewrite rev_nth by (rewrite map_length, seq_length; lia).
  rewrite map_length, seq_length.
  rewrite nth_indep with (d' := digit n 0) by (rewrite map_length, seq_length; lia).
  rewrite (nth_indep _ x00 ((fun i => digit n (w - 1 - i)) 0)) by (rewrite map_length, seq_length; lia).
  rewrite map_nth, (map_nth (fun i => digit n (w - 1 - i))), !seq_nth by lia. f_equal. lia.
Qed.
Lemma zig32 n : int_range 32 n -> encodeZigzag32 n = zig n.
Proof.
  intros H. apply int_range_in in H. unfold encodeZigzag32, zig.
  apply N2Z.inj. rewrite encodeZigzag_spec by (assumption || lia).
  destruct (n <? 0)%Z eqn:E; lia.
Qed.
Lemma zig64 n : int_range 64 n -> encodeZigzag64 n = zig n.
Proof.
  intros H. apply int_range_in in H. unfold encodeZigzag64, zig.
  apply N2Z.inj. rewrite encodeZigzag_spec by (assumption || lia).
  destruct (n <? 0)%Z eqn:E; lia.
Qed.
Lemma twos16 n : int_range 16 n -> toN 16 n = twos 16 n.
Proof.
  unfold int_range, toN, twos. intros H. f_equal. change (16 - 1)%Z with 15%Z in H.
  destruct (n <? 0)%Z eqn:E.
  - symmetry. apply Z.mod_unique with (q := (-1)%Z); lia.
  - apply Z.mod_small. lia.
Qed.
Lemma rot_spec f : f32 f -> encodeRobloxFloat f = rot f.
Proof. apply encodeRobloxFloat_spec. Qed.
Lemma emit_app a b : emit (a ++ b) = emit a ++ emit b.
Proof. apply flat_map_app. Qed.
Lemma emit_rotation l : b_rotation l = emit (map (LE 4) l).
Proof. induction l as [|x l IH]; [reflexivity|]. cbn [b_rotation flat_map map]. unfold emit in *. cbn [flat_map]. rewrite <- IH. unfold le32. now rewrite emit_LE. Qed.
Lemma emit_nsks ks : flat_map b_nsk ks = emit (flat_map (fun k => [LE 4 (ns_time k); LE 4 (ns_value k); LE 4 (ns_env k)]) ks).
Proof.
  induction ks as [|k ks IH]; [reflexivity|]. cbn [flat_map]. rewrite emit_app, <- IH.
  unfold b_nsk, le32. rewrite !emit_LE. unfold emit. cbn [flat_map]. now rewrite app_nil_r.
Qed.
Lemma emit_csks ks : flat_map b_csk ks = emit (flat_map (fun k => [LE 4 (cs_time k); LE 4 (cs_r k); LE 4 (cs_g k); LE 4 (cs_b k); LE 4 (cs_env k)]) ks).
Proof.
  induction ks as [|k ks IH]; [reflexivity|]. cbn [flat_map]. rewrite emit_app, <- IH.
  unfold b_csk, le32. rewrite !emit_LE. unfold emit. cbn [flat_map]. now rewrite app_nil_r.
Qed.
Lemma emit_string s : b_string s = emit (text s).
Proof. unfold b_string, le32, text. rewrite emit_LE. unfold emit. cbn [flat_map]. rewrite app_nil_r. reflexivity. Qed.
Lemma emit_vec3 v : wf_vec3 v -> b_vec3 v = emit (coords v).
Proof.
  intros (H1 & H2 & H3). unfold b_vec3, b_float, be32, coords. rewrite !emit_BE, !rot_spec by assumption.
  unfold emit. cbn [flat_map]. now rewrite app_nil_r.
Qed.

(** C41: every value is written with exactly the documented fields, widths,
    byte order and transformations. *)
Theorem C41_value_layout : forall v, wf_value v -> to_bytes v = emit (layout v).
Proof.
  intros v H. destruct v; cbn [wf_value] in H; cbn [to_bytes layout];
    repeat match goal with H : _ /\ _ |- _ => destruct H end;
    try (unfold b_float, b_int, b_int64, le16, le32, le64, be32, be64;
         rewrite ?emit_BE, ?emit_LE, ?rot_spec, ?zig32, ?zig64, ?twos16 by assumption;
         unfold emit; cbn [flat_map]; rewrite ?app_nil_r, ?app_assoc; reflexivity).
  - apply emit_string.
  - destruct b; reflexivity.
  - destruct right, top, back, left, bottom, front; reflexivity.
  - destruct x, y, z; reflexivity.
  - now apply emit_vec3.
  - rewrite emit_vec3 by assumption. unfold emit at 2. cbn [flat_map]. cbn [emit1 app].
    f_equal. change (flat_map emit1) with emit. rewrite emit_app. f_equal.
    destruct (Byte.eqb special x00); [apply emit_rotation|reflexivity].
  - rewrite emit_vec3 by assumption. unfold emit at 2. cbn [flat_map]. cbn [emit1 app].
    f_equal. change (flat_map emit1) with emit. rewrite emit_app. f_equal.
    destruct (Byte.eqb special x00); [|reflexivity]. unfold b_quat, le32. rewrite !emit_LE.
    unfold emit. cbn [flat_map]. now rewrite app_nil_r.
  - unfold le32. rewrite emit_LE, emit_nsks. reflexivity.
  - unfold le32. rewrite emit_LE, emit_csks. reflexivity.
  - unfold emit. cbn [flat_map emit1 app]. f_equal.
    destruct (Byte.eqb custom x00); [reflexivity|]. unfold b_pp, le32. rewrite !emit_LE.
    cbn [flat_map]. now rewrite app_nil_r.
  - rewrite !emit_app, !emit_string. f_equal. unfold le16. rewrite emit_LE. unfold emit. cbn [flat_map].
    rewrite app_nil_r, app_assoc. reflexivity.
Qed.
Example C41_witness :
  to_bytes (VUniqueId (-2) 1 258) = [x00;x00;x01;x02; x00;x00;x00;x01; x00;x00;x00;x00;x00;x00;x00;x03] /\
  to_bytes (VDouble 1) = [x01;x00;x00;x00;x00;x00;x00;x00] /\
  to_bytes (VFloat 2147483649) = [x00;x00;x00;x03].
Proof. vm_compute. repeat split. Qed.

(** C42: an array is its type byte and then: for interleaved types, byte i of
    element j at position 1 + i*count + j (for references the elements are the
    first id and the wrapped differences); for CFrames the rotations in
    order, then the positions interleaved; otherwise the elements in order. *)
Definition wire_elements (t : tid) (vs : list value) : list value -> Prop :=
  match t with
  | tReference => fun es =>
      length es = length vs /\
      forall j a b, nth_error vs j = Some (VReference b) ->
        (if (j =? 0)%nat then a = 0%Z else nth_error vs (j - 1) = Some (VReference a)) ->
        exists d, nth_error es j = Some (VReference d) /\
          int_range 32 d /\ (d mod 2 ^ 32 = (b - a) mod 2 ^ 32)%Z
  | _ => eq vs
  end.
Definition rotation_part (v : value) : list field :=
  match layout v with
  | f :: r => f :: firstn (length r - 3) r
  | [] => []
  end.

Lemma ref_deltas_nth l : forall prev j b, nth_error l j = Some b ->
  nth_error (ref_deltas prev l) j =
    Some (wrapZ 32 (b - (if (j =? 0)%nat then prev else nth (j - 1) l 0%Z))).
Proof.
  induction l as [|x l IH]; intros prev j b H; [destruct j; discriminate|].
  destruct j as [|j]; cbn [nth_error] in H.
  - injection H as ->. reflexivity.
  - cbn [ref_deltas nth_error]. rewrite (IH x j b H). do 3 f_equal.
    destruct j; [reflexivity|]. cbn [Nat.eqb Nat.sub nth]. now rewrite Nat.sub_0_r.
Qed.
Lemma ref_encode_nth l j b : Forall (int_range 32) l -> nth_error l j = Some b ->
  nth_error (ref_encode l) j =
    Some (wrapZ 32 (b - (if (j =? 0)%nat then 0 else nth (j - 1) l 0)%Z)).
Proof.
  intros Hf H. destruct l as [|x l]; [destruct j; discriminate|]. cbn [ref_encode].
  destruct j as [|j]; cbn [nth_error] in *.
  - injection H as ->. rewrite Z.sub_0_r, wrapZ_id; [reflexivity|lia|].
    apply int_range_in. now inversion Hf.
  - rewrite (ref_deltas_nth l x j b H). do 3 f_equal.
    destruct j; [reflexivity|]. cbn [Nat.eqb Nat.sub nth]. now rewrite Nat.sub_0_r.
Qed.
Lemma mod_wrap d : (wrapZ 32 d mod 2 ^ 32 = d mod 2 ^ 32)%Z.
Proof. apply wrapZ_mod. lia. Qed.

Lemma wire_refs vs : wf_elems tReference vs ->
  wire_elements tReference vs (map VReference (ref_encode (map ref_val vs))).
Proof.
  intros H. cbn [wire_elements]. split; [now rewrite map_length, ref_encode_length, map_length|].
  intros j a b Hb Ha. destruct (ref_vals vs H) as [_ Hf].
  assert (Hb' : nth_error (map ref_val vs) j = Some b) by (rewrite nth_error_map, Hb; reflexivity).
  eexists. split; [rewrite nth_error_map, (ref_encode_nth _ _ _ Hf Hb'); reflexivity|].
  split; [apply wrap32_range|]. rewrite mod_wrap. do 2 f_equal.
  destruct (j =? 0)%nat; [now rewrite Ha|].
  erewrite nth_error_nth; [reflexivity|]. rewrite nth_error_map, Ha. reflexivity.
Qed.

Lemma flat_map_elem (f : value -> bytes) s l j i d :
  (forall v, In v l -> length (f v) = s) -> j < length l -> i < s ->
  elem_byte s (flat_map f l) j i = nth i (f (nth j l d)) x00.
Proof.
  unfold elem_byte. revert j; induction l as [|v l IH]; intros j Hl Hj Hi; [cbn in Hj; lia|].
  cbn [flat_map]. assert (Hv : length (f v) = s) by (apply Hl; now left).
  destruct j as [|j].
  - rewrite app_nth1 by lia. reflexivity.
  - rewrite app_nth2 by lia. replace (S j * s + i - length (f v)) with (j * s + i) by lia.
    apply IH; auto. intros w Hw. apply Hl. now right. cbn in Hj. lia.
Qed.

Theorem C42_interleaved_layout : forall t vs b,
  wf_array (ARR t vs) -> is_interleaved_type t -> vs <> [] ->
  typeArrayToBytes (ARR t vs) = OK b ->
  exists es, wire_elements t vs es /\ length es = length vs /\
    length b = 1 + length vs * Z.to_nat (tid_size t) /\
    nth_error b 0 = Some (tid_byte t) /\
    forall i j v, i < Z.to_nat (tid_size t) -> nth_error es j = Some v ->
      nth (1 + (i * length vs + j)) b x00 = nth i (emit (layout v)) x00.
Proof.
  intros t vs b Hwf Hi Hn Hb. inversion Hwf as [t' vs' Ht Hvs|]; subst.
  change (wf_elems t vs) in Hvs. apply interleaved_spec in Hi.
  cbn [typeArrayToBytes] in Hb. unfold arr_to_bytes1 in Hb. rewrite Hi in Hb.
  destruct (interleaved_size t Hi) as (s & Hs & Hsz & Hlen).
  set (es := if tid_eqb t tReference then map VReference (ref_encode (map ref_val vs)) else vs).
  assert (Hes : wire_elements t vs es /\ length es = length vs /\
    wf_elems t es /\ arr_raw t vs = OK (flat_map to_bytes es)).
  { unfold es. destruct (tid_eqb t tReference) eqn:E.
    - assert (t = tReference) by (destruct t; cbv in E; congruence). subst t.
      split; [now apply wire_refs|]. split; [now rewrite map_length, ref_encode_length, map_length|].
      split.
      + unfold wf_elems. rewrite Forall_map. apply Forall_forall. intros z Hz. split; [reflexivity|].
        cbn [wf_value]. destruct (ref_vals vs Hvs) as [_ Hf].
        destruct (In_nth_error _ _ Hz) as [k Hk].
        assert (Hkl : k < length (map ref_val vs)).
        { rewrite <- ref_encode_length. apply nth_error_Some. congruence. }
        destruct (nth_error (map ref_val vs) k) as [q|] eqn:Eq; [|apply nth_error_None in Eq; lia].
        rewrite (ref_encode_nth _ _ _ Hf Eq) in Hk. injection Hk as <-. apply wrap32_range.
      + cbn [arr_raw]. f_equal. induction (ref_encode (map ref_val vs)) as [|z l IH]; [reflexivity|].
        cbn [flat_map map]. now rewrite IH.
    - split; [destruct t; try reflexivity; cbv in E; discriminate|].
      split; [reflexivity|]. split; [exact Hvs|].
      destruct t; try reflexivity; try discriminate Hi; cbv in E; discriminate. }
  destruct Hes as (He1 & He2 & He3 & He4). exists es. split; [exact He1|]. split; [exact He2|].
  rewrite He4 in Hb. cbn [obind] in Hb.
  assert (Hfl : length (flat_map to_bytes es) = length vs * s).
  { rewrite (flat_to_bytes_length t) by exact He3. rewrite (sum_len_const t es s) by auto. now rewrite He2. }
  rewrite Hsz in Hb. rewrite (interleave_tr _ s (length vs)) in Hb; [|exact Hs|destruct vs; [congruence|discriminate]|exact Hfl].
  cbn [obind] in Hb. injection Hb as <-. rewrite Hsz, Nat2Z.id.
  split; [cbn [length]; rewrite tr_length; lia|]. split; [reflexivity|].
  intros i j v Hi' Hj. assert (Hjl : j < length vs) by (rewrite <- He2; apply nth_error_Some; congruence).
  change (nth (1 + (i * length vs + j)) (tid_byte t :: tr (length vs) s (flat_map to_bytes es)) x00)
    with (nth (i * length vs + j) (tr (length vs) s (flat_map to_bytes es)) x00).
  rewrite tr_cell by assumption.
  change (elem_byte s (flat_map to_bytes es) j i = nth i (emit (layout v)) x00).
  unfold wf_elems in He3. rewrite Forall_forall in He3.
  rewrite (flat_map_elem to_bytes s es j i v); [|intros w Hw|lia|exact Hi'].
  - rewrite (nth_error_nth es j v Hj). rewrite <- C41_value_layout; [reflexivity|].
    apply (He3 v). eapply nth_error_In; eauto.
  - destruct (He3 w Hw) as [E1 E2]. rewrite to_bytes_length by exact E2. now apply Hlen.
Qed.
Theorem C42_plain_layout : forall t vs b,
  wf_array (ARR t vs) -> ~ is_interleaved_type t -> ~ is_cframe_type t ->
  typeArrayToBytes (ARR t vs) = OK b -> b = tid_byte t :: emit (flat_map layout vs).
Proof.
  intros t vs b Hwf Hi Hc Hb. inversion Hwf as [t' vs' Ht Hvs|]; subst.
  rewrite <- interleaved_spec in Hi. rewrite <- is_cf_spec in Hc.
  cbn [typeArrayToBytes] in Hb. unfold arr_to_bytes1 in Hb.
  destruct (interleaved t) eqn:E; [congruence|].
  assert (Hr : arr_raw t vs = OK (flat_map to_bytes vs)) by (destruct t; try reflexivity; try discriminate E; cbn in Hc; congruence).
  rewrite Hr in Hb. cbn [obind] in Hb. injection Hb as <-. f_equal.
  clear -Hvs. induction Hvs as [|v vs [_ Hv] H IH]; [reflexivity|].
  cbn [flat_map]. now rewrite emit_app, IH, C41_value_layout.
Qed.
Theorem C42_cframe_layout : forall t vs b,
  wf_array (ARR t vs) -> is_cframe_type t -> vs <> [] ->
  typeArrayToBytes (ARR t vs) = OK b ->
  exists pos, b = tid_byte t :: emit (flat_map rotation_part vs) ++ pos /\
    length pos = 12 * length vs /\
    forall i j v, i < 12 -> nth_error vs j = Some v ->
      nth (i * length vs + j) pos x00 = nth i (emit (coords (cframe_pos v))) x00.
Proof.
  intros t vs b Hwf Hc Hn Hb. inversion Hwf as [t' vs' Ht Hvs|]; subst.
  apply is_cf_spec in Hc.
  assert (Hi : interleaved t = false) by (destruct t; (reflexivity || discriminate Hc)).
  cbn [typeArrayToBytes] in Hb. unfold arr_to_bytes1 in Hb. rewrite Hi in Hb.
  assert (Hr : arr_raw t vs = cframes_bytes vs) by (destruct t; try discriminate Hc; reflexivity).
  rewrite Hr in Hb. unfold cframes_bytes in Hb.
  assert (Hl : length vs <> 0) by (destruct vs; [congruence|discriminate]).
  change (Z.of_nat zVector3) with (Z.of_nat 12) in Hb.
  rewrite (interleave_tr _ 12 (length vs)) in Hb; [|lia|exact Hl|apply pos_bytes_length].
  cbn [obind] in Hb. injection Hb as <-.
  eexists. split; [f_equal; f_equal|].
  - clear -Hvs Hc. induction Hvs as [|v vs [Hv1 Hv2] H IH]; [reflexivity|].
    cbn [flat_map]. rewrite emit_app, <- IH. f_equal.
    destruct v; cbn [vtype] in Hv1; subst t; try discriminate Hc; cbn [cframe_head rotation_part layout].
    + destruct (Byte.eqb special x00); cbn [app].
      * rewrite app_length. replace (length (map (LE 4) rotation) + length (coords position) - 3) with (length (map (LE 4) rotation)) by (cbn [coords length]; lia).
        rewrite firstn_app_exact by reflexivity. unfold emit. cbn [flat_map emit1 app]. f_equal. apply emit_rotation.
      * reflexivity.
    + destruct (Byte.eqb special x00); [|reflexivity].
      unfold emit. cbn [app length coords Nat.sub firstn flat_map emit1]. f_equal.
      unfold b_quat, le32. rewrite !emit_LE. now rewrite app_nil_r.
  - split; [rewrite tr_length; lia|].
    intros i j v Hi' Hj. assert (Hjl : j < length vs) by (apply nth_error_Some; congruence).
    rewrite tr_cell by assumption.
    change (elem_byte 12 (flat_map (fun v => b_vec3 (cframe_pos v)) vs) j i = nth i (emit (coords (cframe_pos v))) x00).
    rewrite (flat_map_elem _ 12 vs j i v); [|intros; apply b_vec3_length|exact Hjl|exact Hi'].
    rewrite (nth_error_nth vs j v Hj), emit_vec3; [reflexivity|].
    rewrite Forall_forall in Hvs. destruct (Hvs v (nth_error_In _ _ Hj)) as [E1 E2].
    destruct v; cbn [vtype] in E1; subst t; try discriminate Hc; cbn [wf_value] in E2; cbn [cframe_pos]; tauto.
Qed.
Example C42_witness :
  typeArrayToBytes (ARR tVector2int16 [VVector2int16 1 (-1); VVector2int16 256 2]) =
    OK [x0f; x01;x00;xff;xff; x00;x01;x02;x00] /\
  typeArrayToBytes (ARR tInt [VInt 1; VInt (-1); VInt 300]) =
    OK [x03; x00;x00;x00; x00;x00;x00; x00;x00;x02; x02;x01;x58] /\
  exists b, typeArrayToBytes (ARR tCFrame [VCFrame x02 (repeat 0%N 9) (Vec3 1 2 3)]) = OK b.
Proof. vm_compute. repeat split. eexists. reflexivity. Qed.

Print Assumptions C41_value_layout.
Print Assumptions C42_interleaved_layout.
Print Assumptions C42_plain_layout.
Print Assumptions C42_cframe_layout.
