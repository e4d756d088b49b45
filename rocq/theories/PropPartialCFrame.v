(** PropPartialCFrame.v - C95 for columns of CFrames that break off. *)
From Verif Require Import Base RbxlValues RbxlArrays RbxlValuesProofs RbxlArraysProofs TransposeProofs RbxlModel RbxlModelProofs RbxlFile RbxlFileProofs SpecValues SpecArrays SpecModel SpecFile
  RbxlDump RbxlPartial SpecDumpLayout SpecPartial DumpFile SpecWire PropWire PropDecode PropPartial.

(** ** Specification *)

(** The same CFrame elsewhere *)
Definition placed (v : value) (p : vec3) : value :=
  match v with VCFrame s r _ => VCFrame s r p | VCFrameQuat s x y z w _ => VCFrameQuat s x y z w p | v => v end.
Definition origin : vec3 := Vec3 0 0 0.
(** Too few bytes for one more CFrame, its position included *)
Definition too_short (t : tid) (b : bytes) : Prop :=
  length b < 13 \/ (hd_error b = Some x00 /\ length b < match t with tCFrameQuat => 29 | _ => 49 end).
(** Byte j of the position of value i, of n, in the planes *)
Definition plane_byte (n : nat) (planes : bytes) (i j : nat) : byte := nth (j * n + i) planes x00.

(** ** Proofs *)
Lemma head_emit t v : is_cf t = true -> vtype v = t -> cframe_head v = emit (rotation_part v).
Proof.
  intros Hc Hv. destruct v; cbn [vtype] in Hv; subst t; try discriminate Hc; cbn [cframe_head rotation_part layout].
  - destruct (Byte.eqb special x00); cbn [app]; [|reflexivity].
    rewrite app_length. replace (length (map (LE 4) rotation) + length (coords position) - 3) with (length (map (LE 4) rotation)) by (cbn [coords length]; lia).
    rewrite firstn_app_exact by reflexivity. unfold emit. cbn [flat_map emit1 app]. f_equal. apply emit_rotation.
  - destruct (Byte.eqb special x00); [|reflexivity].
    unfold emit. cbn [app length coords Nat.sub firstn flat_map emit1]. f_equal.
    unfold b_quat, le32. rewrite !emit_LE. now rewrite app_nil_r.
Qed.
Definition headed (t : tid) (v : value) : Prop := vtype v = t /\ placed v origin = v.
Lemma heads_emit t vs : is_cf t = true -> Forall (headed t) vs -> flat_map cframe_head vs = emit (flat_map rotation_part vs).
Proof. intros Hc. induction 1 as [|v vs [H _] _ IH]; [reflexivity|]. cbn [flat_map]. now rewrite emit_app, <- IH, (head_emit t). Qed.
Lemma head_one t b : is_cf t = true ->
  (too_short t b /\ failed (checkLengthCond t b)) \/
  exists c r v r2 k, checkLengthCond t b = OK (c, r, cond_size t c) /\
    (match t with
     | tCFrameQuat =>
         if Byte.eqb c x00
         then ' ((x, y, z, w), b) <- rd_quat r ;;
              OK (VCFrameQuat c x y z w vec3_zero, b, zCFrameQuatSp + zCFrameQuatQ)
         else OK (VCFrameQuat c 0 0 0 0 vec3_zero, r, zCFrameQuatSp)
     | _ =>
         if Byte.eqb c x00
         then ' (rot, b) <- rd_floats 9 r ;;
              OK (VCFrame c rot vec3_zero, b, zCFrameSp + zCFrameRo)
         else OK (VCFrame c (repeat 0%N 9) vec3_zero, r, zCFrameSp)
     end : res (value * bytes * nat)) = OK (v, r2, k) /\ headed t v /\ wf_value v /\ b = cframe_head v ++ r2.
Proof.
  intros Hc. destruct (clcond_case t b) as [[e E]|(c & r & E & -> & Hl)].
  - left. split; [|intros y; rewrite E; discriminate]. unfold too_short. unfold checkLengthCond in E. destruct b as [|c r]; [left; cbn; lia|].
    destruct (_ <? _)%nat eqn:L in E; [|discriminate E]. cbn [hd_error]. destruct t; try discriminate Hc; cbn [cond_size] in L; destruct (Byte.eqb c x00) eqn:Ec.
    + apply byte_dec_bl in Ec. subst c. right. split; [reflexivity|]. unfold zCFrameFull, zCFrameSp, zCFrameRo, zCondLen in L. sizes. lia.
    + left. unfold zCFrameShort, zCFrameSp, zCondLen in L. sizes. lia.
    + apply byte_dec_bl in Ec. subst c. right. split; [reflexivity|]. unfold zCFrameQuatFull, zCFrameQuatSp, zCFrameQuatQ, zCondLen in L. sizes. lia.
    + left. unfold zCFrameQuatShort, zCFrameQuatSp, zCondLen in L. sizes. lia.
  - right. assert (Hz : wf_vec3 vec3_zero) by (repeat split; reflexivity).
    destruct t; try discriminate Hc; cbn [cond_size] in Hl; destruct (Byte.eqb c x00) eqn:Ec.
    + destruct (rd_floats_case 9 r) as (l & r2 & Q & Hr & H9 & Hf).
      { unfold zCFrameFull, zCFrameSp, zCFrameRo, zCondLen in Hl. sizes. lia. }
      exists c, r, (VCFrame c l vec3_zero), r2, 37. split; [exact E|]. split; [now rewrite Ec, Q|]. split; [split; reflexivity|]. split; [repeat split; assumption || apply Hz|].
      cbn [cframe_head]. now rewrite Ec, Hr.
    + exists c, r, (VCFrame c (repeat 0%N 9) vec3_zero), r, 1. split; [exact E|]. split; [now rewrite Ec|]. split; [split; reflexivity|].
      split; [repeat split; try apply Hz; repeat constructor|]. cbn [cframe_head]. now rewrite Ec.
    + destruct (rd_quat_case r) as (x & y & z & w & r2 & Q & Hr & Hx & Hy & Hz' & Hw).
      { unfold zCFrameQuatFull, zCFrameQuatSp, zCFrameQuatQ, zCondLen in Hl. sizes. lia. }
      exists c, r, (VCFrameQuat c x y z w vec3_zero), r2, 17. split; [exact E|]. split; [now rewrite Ec, Q|]. split; [split; reflexivity|]. split; [repeat split; assumption || apply Hz|].
      cbn [cframe_head]. now rewrite Ec, Hr.
    + exists c, r, (VCFrameQuat c 0 0 0 0 vec3_zero), r, 1. split; [exact E|]. split; [now rewrite Ec|]. split; [split; reflexivity|].
      split; [repeat split; try apply Hz; repeat constructor|]. cbn [cframe_head]. now rewrite Ec.
Qed.
Lemma heads_shape t n : is_cf t = true -> forall i b,
  (exists ws r m, heads_from t n i b = OK (ws, r, m) /\ length ws = n /\ Forall (headed t) ws /\ Forall wf_value ws /\ b = flat_map cframe_head ws ++ r) \/
  (failed (heads_from t n i b) /\ exists k ws r, k < n /\ length ws = k /\ Forall (headed t) ws /\ b = flat_map cframe_head ws ++ r /\ too_short t r /\
     partial_heads t n b = ws ++ repeat (zero_of t) (n - k)).
Proof.
  intros Hc. induction n as [|n IH]; intros i b.
  - left. exists [], b, 0. repeat split; constructor.
  - cbn [heads_from partial_heads].
    destruct (head_one t b Hc) as [[Hs Hf]|(c & r & v & r2 & k & E & Ev & Hh & Hw & Eb)].
    + right. destruct (checkLengthCond t b) as [[[? ?] ?]|e| |] eqn:E; [now destruct (Hf (b0, b1, n0))| | |];
        (split; [intros y; discriminate|]; exists 0, [], b; split; [lia|]; split; [reflexivity|]; split; [constructor|]; split; [reflexivity|]; split; [exact Hs|]; cbn [obind app];
         rewrite Nat.sub_0_r; rewrite zero_value_of by (destruct t; discriminate); reflexivity).
    + rewrite E. rewrite Ev. cbn [obind]. destruct (IH (S i) r2) as [(ws & r3 & m & E1 & E2 & E3 & E4 & E5)|(Hf & k' & ws & r3 & E1 & E2 & E3 & E4 & E5 & E6)].
      * left. exists (v :: ws), r3, (k + m). rewrite E1. cbn [obind length flat_map]. repeat split; auto; try (constructor; assumption). now rewrite Eb, E5, app_assoc.
      * right. split; [intros y Q; apply bind_OK in Q as [y' [Q _]]; now apply (Hf y')|]. exists (S k'), (v :: ws), r3. cbn [length flat_map].
        split; [lia|]. split; [now rewrite E2|]. split; [now constructor|]. split; [now rewrite Eb, E4, app_assoc|]. split; [exact E5|]. now rewrite E6.
Qed.
Lemma skipn_twice {A} a : forall b (l : list A), skipn b (skipn a l) = skipn (a + b) l.
Proof. induction a as [|a IH]; intros b l; [reflexivity|]. destruct l as [|x l]; [now rewrite !skipn_nil|]. cbn [skipn Nat.add]. apply IH. Qed.
Lemma set_placed v p : set_pos v p = placed v p.
Proof. now destruct v. Qed.
Lemma pos_shape t vs : is_cf t = true -> Forall (headed t) vs -> forall b, length (partial_pos vs b) = length vs /\
  forall i v, nth_error vs i = Some v -> exists p, nth_error (partial_pos vs b) i = Some (placed v p) /\
    (12 * S i <= length b -> wf_vec3 p /\ b_vec3 p = firstn 12 (skipn (12 * i) b)) /\ (length b < 12 * S i -> p = origin).
Proof.
  intros Hc. induction 1 as [|v vs [Hv Hp] Hvs IH]; intros b; [split; [reflexivity|intros [|i] v; discriminate]|]. cbn [partial_pos].
  destruct (clc_case zVector3 b) as [[e E]|[_ Hl]].
  - assert (L : length b < 12) by (unfold checkLengthConst in E; destruct (_ <? _)%nat eqn:Q in E; [sizes; lia|discriminate E]).
    assert (E' : fb_vec3 b = Err e) by (unfold fb_vec3; now rewrite E). rewrite E'. split; [reflexivity|].
    intros i w Hw. exists origin. rewrite Hw. assert (Hh : headed t w) by (eapply (proj1 (Forall_forall _ _)); [|eapply nth_error_In; exact Hw]; constructor; [now split|exact Hvs]).
    destruct Hh as [_ Hh]. rewrite Hh. split; [reflexivity|]. split; [lia|reflexivity].
  - sizes. destruct (adv_vec3_case b ltac:(lia)) as (p & r & E & Eb & Hwp). rewrite E. destruct (IH (skipn 12 b)) as [I1 I2]. split; [cbn [length]; now rewrite I1|].
    intros [|i] w Hw.
    + cbn in Hw. injection Hw as <-. exists p. split; [cbn; now rewrite set_placed|]. split; [|lia]. intros _. split; [exact Hwp|]. rewrite Nat.mul_0_r. cbn [skipn]. rewrite Eb.
      now rewrite firstn_app_exact by apply b_vec3_length.
    + cbn [nth_error] in *. destruct (I2 i w Hw) as (q & J1 & J2 & J3). exists q. split; [exact J1|]. rewrite skipn_length in *. split.
      * intros L. destruct J2 as [J2 J4]; [lia|]. split; [exact J2|]. rewrite J4. f_equal. rewrite skipn_twice. f_equal. lia.
      * intros L. apply J3. lia.
Qed.
Lemma pos_enough vs : forall b i, 12 * length vs <= length b -> exists vs' m, pos_from vs i b = OK (vs', m).
Proof.
  induction vs as [|v vs IH]; intros b i G; [eexists _, _; reflexivity|].
  cbn [length] in G. destruct (adv_vec3_case b ltac:(lia)) as (p & r & E & _). cbn [pos_from]. rewrite E. destruct (length b <? 12)%nat eqn:Q; [lia|].
  destruct (IH (skipn 12 b) (S i)) as (vs' & m2 & E'); [rewrite skipn_length; lia|]. rewrite E'. eexists _, _. reflexivity.
Qed.
Lemma firstn_nth {A} (d : A) m : forall l, m <= length l -> firstn m l = map (fun j => nth j l d) (seq 0 m).
Proof.
  induction m as [|m IH]; intros l L; [reflexivity|]. destruct l as [|a l]; [cbn in L; lia|]. cbn [firstn seq map]. f_equal. rewrite IH by (cbn in L; lia).
  rewrite <- seq_shift, map_map. reflexivity.
Qed.
Lemma nth_skipn' {A} (d : A) k : forall l j, nth j (skipn k l) d = nth (k + j) l d.
Proof. induction k as [|k IH]; intros l j; [reflexivity|]. destruct l as [|a l]; [destruct j; reflexivity|]. cbn [skipn Nat.add nth]. apply IH. Qed.
Lemma nth_firstn' {A} (d : A) k : forall l j, j < k -> nth j (firstn k l) d = nth j l d.
Proof. induction k as [|k IH]; intros l j H; [lia|]. destruct l as [|a l]; [reflexivity|]. destruct j as [|j]; [reflexivity|]. cbn [firstn nth]. apply IH. lia. Qed.

(** A column of CFrames that breaks off has the rotations of the first values
    and zeros if it breaks off among the rotations.  If it breaks off among the
    positions, whose bytes are interleaved, it has all rotations, and positions
    as if the missing bytes were zero for as many values as the bytes there
    would give; the other positions are zero. *)
Theorem C95_cframes : forall lz spare noXML input f ws st i z sg offset cause content id name t vs,
  decode lz spare noXML input = OK (DModel f, ws, st) -> nth_error (fm_chunks f) i = Some (Chunk z (PErrored sg offset cause content)) ->
  partial_of spare f i = PProp id name (Some (ARR t vs)) -> is_cframe_type t ->
  exists tb column n, content = le32 (toN 32 id) ++ writeString name ++ tb :: column /\ tid_of_byte tb = Some t /\
    declared_before f i id = Some n /\ length vs = n /\
    exists seen rest, Forall (headed t) seen /\ column = emit (flat_map rotation_part seen) ++ rest /\
     ((length seen < n /\ too_short t rest /\ vs = seen ++ repeat (zero_of t) (n - length seen)) \/
      (length seen = n /\ length rest < 12 * n /\
       forall k v, nth_error seen k = Some v -> exists p, nth_error vs k = Some (placed v p) /\
         (12 * S k <= length rest -> emit (coords p) = map (plane_byte n rest k) (seq 0 12)) /\
         (length rest < 12 * S k -> p = origin))).
Proof.
  intros lz spare noXML input f ws st i z sg offset cause content id name t vs Hd Hi Hp Hc.
  destruct (C95_errored _ _ _ _ _ _ _ _ _ _ _ _ _ Hd Hi) as (r & He & _).
  assert (Hx : forall id, declared_before f i id = group_len (groups_before (fm_chunks f) 0 i) id) by (intros id'; symmetry; apply groups_before_declared).
  rewrite (read_ext _ _ _ _ _ Hx) in He. unfold partial_of in Hp. rewrite Hi in Hp. unfold partial_payload in Hp. unfold read_payload in He.
  destruct (sg =? sigMETA)%N; [unfold partial_meta in Hp; destruct (rNum 4 content) as [[? ?]|?| |]; discriminate Hp|].
  destruct (sg =? sigSSTR)%N.
  { unfold partial_sstr in Hp. destruct (rNum 4 content) as [[? q]|?| |]; try discriminate Hp. destruct (rNum 4 q) as [[? ?]|?| |]; discriminate Hp. }
  destruct (sg =? sigINST)%N.
  { unfold partial_inst in Hp. repeat match type of Hp with context [match ?x with OK _ => _ | _ => _ end] => destruct x as [[? ?]|?| |]; try discriminate Hp end. }
  destruct (sg =? sigPROP)%N.
  2:{ destruct (sg =? sigPRNT)%N; [|discriminate Hp]. unfold partial_prnt in Hp.
      repeat match type of Hp with context [match ?x with OK _ => _ | _ => _ end] => destruct x as [[? ?]|?| |]; try discriminate Hp end. }
  unfold partial_prop in Hp. unfold read_prop in He. destruct (rI32 content) as [[id' b]|?| |] eqn:E1; try discriminate Hp. cbn [obind] in He.
  destruct (group_len (groups_before (fm_chunks f) 0 i) id') as [n|] eqn:Eg; [|discriminate Hp].
  destruct (readString b) as [[name' col]|?| |] eqn:E2; try discriminate Hp. cbn [obind] in He. injection Hp as -> -> Ha.
  destruct col as [|tb rest]; [discriminate Ha|].
  destruct (tid_of_byte tb) as [t'|] eqn:Et; [|cbn [partial_array] in Ha; rewrite Et in Ha; discriminate].
  assert (Ho : t' <> tOptional).
  { intros ->. cbn [partial_array] in Ha. rewrite Et in Ha. destruct (typeArrayFromBytes _ rest n) as [[? ?]|?| |]; discriminate. }
  destruct (tafb_plain (spare (length (tb :: rest))) t' n tb rest Et Ho) as [T1 T2]. rewrite T2 in Ha.
  assert (t' = t) by congruence. subst t'. assert (Ea : partial_arr1 (spare (length (tb :: rest))) t n rest = vs) by congruence. clear Ha. rewrite T1 in He. clear T1 T2.
  exists tb, rest, n. rewrite (rI32_inv _ _ _ E1), (readString_inv _ _ _ E2). split; [reflexivity|]. split; [exact Et|]. split; [now rewrite Hx|].
  apply is_cf_spec in Hc. set (sp := spare (length (tb :: rest))) in *.
  assert (Hcf : arr_from1 sp t n rest = cframes_from sp t n rest) by (destruct t; try discriminate Hc; reflexivity). rewrite Hcf in He.
  assert (Hpf : partial_arr1 sp t n rest = partial_cframes sp t n rest) by (destruct t; try discriminate Hc; reflexivity). rewrite Hpf in Ea. clear Hcf Hpf.
  unfold cframes_from in He. unfold partial_cframes in Ea.
  destruct (heads_shape t n Hc 0 rest) as [(seen & r0 & m & H1 & H2 & H3 & H4 & H5)|(Hf & k & seen & r0 & H1 & H2 & H3 & H4 & H5 & H6)].
  - rewrite H1 in He, Ea. cbn [obind] in He. change zVector3 with 12 in *.
    destruct (length r0 + sp <? n * 12)%nat eqn:Q; [discriminate He|].
    assert (Lk : length (firstn (n * 12) (r0 ++ repeat x00 sp)) = n * 12) by (rewrite firstn_length, app_length, repeat_length; lia).
    rewrite (deinterleave_tr _ 12 n) in He, Ea by (auto; lia). cbn [obind] in He. cbv zeta in Ea.
    set (blk := firstn (n * 12) (r0 ++ repeat x00 sp)) in *. set (b2 := firstn (length r0) (tr 12 n blk ++ skipn (n * 12) r0)) in *.
    destruct (pos_shape t seen Hc H3 b2) as [P1 P2].
    assert (L2 : length b2 = length r0) by (unfold b2; rewrite firstn_length, app_length, tr_length, skipn_length; lia).
    split; [rewrite <- Ea, P1; exact H2|]. exists seen, r0. split; [exact H3|]. split; [rewrite H5; f_equal; now apply (heads_emit t)|]. right. split; [exact H2|].
    assert (Lr : length r0 < 12 * n).
    { destruct (Nat.lt_ge_cases (length r0) (12 * n)) as [G|G]; [exact G|exfalso].
      assert (G2 : exists vs' m2, pos_from seen 0 b2 = OK (vs', m2)).
      { apply pos_enough. lia. }
      destruct G2 as (vs' & m2 & G2). rewrite G2 in He. discriminate He. }
    split; [exact Lr|]. intros k v Hk. destruct (P2 k v Hk) as (p & J1 & J2 & J3). exists p. split; [now rewrite <- Ea|]. rewrite L2 in J2, J3. split; [|exact J3].
    intros L. destruct (J2 L) as [J4 J5]. rewrite <- (emit_vec3 p J4), J5. rewrite (firstn_nth x00) by (rewrite skipn_length; lia). apply map_ext_in. intros j Hj. apply in_seq in Hj.
    rewrite nth_skipn'. unfold b2. rewrite nth_firstn' by lia.
    assert (Kn : k < n) by (rewrite <- H2; apply nth_error_Some; congruence).
    rewrite app_nth1 by (rewrite tr_length; nia). replace (12 * k + j) with (k * 12 + j) by lia. rewrite tr_cell by lia.
    unfold plane_byte, blk. rewrite nth_firstn' by nia. destruct (Nat.lt_ge_cases (j * n + k) (length r0)) as [G|G]; [now rewrite app_nth1|].
    rewrite app_nth2 by exact G. rewrite (nth_overflow r0) by exact G. rewrite nth_repeat. reflexivity.
  - assert (Hf' : match heads_from t n 0 rest with OK _ => False | _ => True end) by (destruct (heads_from t n 0 rest) as [y|?| |]; [now apply (Hf y)|exact I..]).
    assert (Ea' : vs = partial_heads t n rest) by (destruct (heads_from t n 0 rest) as [y|?| |]; [contradiction|now symmetry..]).
    split; [rewrite Ea', H6, app_length, repeat_length; lia|]. exists seen, r0. split; [exact H3|]. split; [rewrite H4; f_equal; now apply (heads_emit t)|].
    left. rewrite H2. split; [exact H1|]. split; [exact H5|]. now rewrite Ea'.
Qed.
(** Two CFrames of which four bytes of the positions are missing, and two of
    which the second lacks its rotation. *)
Definition column_start : bytes := le32 3 ++ le32 1 ++ str "c"%string.
Definition cut_positions : bytes := column_start ++ x10 :: [x02; x05] ++ [x7f; x01; x02; x03; x04; x05; x06; x07; x08; x09; x0a; x0b; x0c; x0d; x0e; x0f; x10; x11; x12; x13].
Definition cut_rotation : bytes := column_start ++ x10 :: [x02; x00] ++ repeat x01 30.
Definition cut_cframes (column : bytes) : bytes :=
  file_of 1 2 [PInst 3 (str "Part"%string) [7; 8]%Z false []; PUnknown sigPROP column; PPrnt 0 [7; 8]%Z [-1; -1]%Z].
Lemma C95_cframes_witness :
  (exists f ws st offset cause p, decode no_lz (fun _ => 8) true (cut_cframes cut_positions) = OK (DModel f, ws, st) /\
    nth_error (fm_chunks f) 1 = Some (Chunk false (PErrored sigPROP offset cause cut_positions)) /\ p <> origin /\
    partial_of (fun _ => 8) f 1 = PProp 3 (str "c"%string) (Some (ARR tCFrame [VCFrame x02 (repeat 0%N 9) p; VCFrame x05 (repeat 0%N 9) origin]))) /\
  (exists f ws st offset cause, decode no_lz (fun _ => 8) true (cut_cframes cut_rotation) = OK (DModel f, ws, st) /\
    nth_error (fm_chunks f) 1 = Some (Chunk false (PErrored sigPROP offset cause cut_rotation)) /\
    partial_of (fun _ => 8) f 1 = PProp 3 (str "c"%string) (Some (ARR tCFrame [VCFrame x02 (repeat 0%N 9) origin; VCFrame x00 (repeat 0%N 9) origin]))).
Proof.
  split.
  - destruct (decode no_lz (fun _ => 8) true (cut_cframes cut_positions)) as [[[[b|f] ws] st]|?| |] eqn:E; [vm_compute in E; discriminate| |vm_compute in E; discriminate..].
    vm_compute in E. injection E as <- <- <-. eexists _, _, _, _, _, _. split; [reflexivity|]. split; [vm_compute; reflexivity|]. split; [|vm_compute; reflexivity]. discriminate.
  - destruct (decode no_lz (fun _ => 8) true (cut_cframes cut_rotation)) as [[[[b|f] ws] st]|?| |] eqn:E; [vm_compute in E; discriminate| |vm_compute in E; discriminate..].
    vm_compute in E. injection E as <- <- <-. eexists _, _, _, _, _. split; [reflexivity|]. split; vm_compute; reflexivity.
Qed.
Print Assumptions C95_cframes.
