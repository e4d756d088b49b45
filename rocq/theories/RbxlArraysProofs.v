(** RbxlArraysProofs.v - lemmas about property arrays (rbxl/arrays.go). *)
From Verif Require Import Base RbxlValues RbxlWordProofs SpecValues RbxlValuesProofs
  RbxlArrays TransposeProofs SpecArrays.

Lemma vtype_not_opt v : vtype v <> tOptional.
Proof. destruct v; discriminate. Qed.

Lemma stored_idem v : stored (stored v) = stored v.
Proof. destruct v; cbn; try reflexivity; destruct (Byte.eqb _ x00) eqn:E; cbn; now rewrite E. Qed.

Lemma interleaved_spec t : interleaved t = true <-> is_interleaved_type t.
Proof.
  unfold is_interleaved_type. split.
  - destruct t; cbn; intros; try discriminate; tauto.
  - cbn. intuition (subst; reflexivity).
Qed.

(** Interleaved types have a fixed positive size. *)
Lemma const_size t v : interleaved t = true -> vtype v = t ->
  exists s, s <> 0 /\ tid_size t = Z.of_nat s /\ bytes_len v = s /\
            forall w, vtype w = t -> bytes_len w = s.
Proof.
  intros Hi <-.
  assert (H : exists s, s <> 0 /\ tid_size (vtype v) = Z.of_nat s /\ forall w, vtype w = vtype v -> bytes_len w = s).
  { destruct v; try discriminate Hi; cbn [vtype tid_size];
      (eexists; split; [|split; [reflexivity|]];
       [vm_compute; discriminate | intros w Hw; destruct w; try discriminate Hw; reflexivity]). }
  destruct H as (s & H1 & H2 & H3). exists s. repeat split; auto.
Qed.
Lemma interleaved_size t : interleaved t = true -> exists s, s <> 0 /\ tid_size t = Z.of_nat s /\
   forall w, vtype w = t -> bytes_len w = s.
Proof.
  intros Hi.
  destruct t; try discriminate Hi; cbn [vtype tid_size];
      (eexists; split; [|split; [reflexivity|]];
       [vm_compute; discriminate | intros w Hw; destruct w; try discriminate Hw; reflexivity]).
Qed.

Definition wf_elems t vs := Forall (fun v => vtype v = t /\ wf_value v) vs.

Definition sum_len (vs : list value) : nat := fold_right (fun v n => bytes_len v + n) 0 vs.

Lemma flat_to_bytes_length t vs : wf_elems t vs -> length (flat_map to_bytes vs) = sum_len vs.
Proof.
  induction 1 as [|v vs [Ht Hv] Hvs IH]; cbn; [reflexivity|].
  rewrite app_length, to_bytes_length, IH by assumption. reflexivity.
Qed.
Lemma sum_len_const t vs s : wf_elems t vs -> (forall w, vtype w = t -> bytes_len w = s) -> sum_len vs = length vs * s.
Proof.
  intros H Hs. induction H as [|v vs [Ht Hv] Hvs IH]; cbn; [reflexivity|].
  rewrite (Hs v Ht). fold (sum_len vs). lia.
Qed.

(** ** The element loop reads back what was written *)
Lemma elems_from_app t vs : wf_elems t vs -> forall i r,
  elems_from t (length vs) i (flat_map to_bytes vs ++ r) = OK (map stored vs, sum_len vs).
Proof.
  induction 1 as [|v vs [Ht Hv] Hvs IH]; intros i r; cbn [length elems_from flat_map map]; [reflexivity|].
  rewrite <- app_assoc. rewrite <- Ht at 1. rewrite from_to_bytes by assumption.
  rewrite app_length, to_bytes_length by assumption.
  destruct (_ <? _)%nat eqn:E; [lia|].
  rewrite skipn_app_exact by (now apply to_bytes_length).
  rewrite IH. reflexivity.
Qed.

(** ** References *)
Lemma ref_vals vs : wf_elems tReference vs -> map VReference (map ref_val vs) = vs /\ Forall (int_range 32) (map ref_val vs).
Proof.
  induction 1 as [|v vs [Ht Hv] Hvs [IH1 IH2]]; cbn; [auto|].
  destruct v; try discriminate. cbn in *. rewrite IH1. auto.
Qed.
Lemma delta_undo v prev : int_range 32 v -> wrapZ 32 (wrapZ 32 (v - prev) + prev) = v.
Proof.
  intros H. apply int_range_in in H.
  transitivity (wrapZ 32 v); [|now apply wrapZ_id].
  apply wrapZ_eq_mod. rewrite Z.add_mod, wrapZ_mod, <- Z.add_mod by lia. f_equal. lia.
Qed.
Lemma b_ref_length n : length (to_bytes (VReference n)) = 4.
Proof. apply b_int_length. Qed.
Lemma wrap32_range z : int_range 32 (wrapZ 32 z).
Proof. apply int_range_in, wrapZ_range. lia. Qed.

Lemma refs_from_app l : Forall (int_range 32) l -> forall i prev r, i <> 0 ->
  refs_from (length l) i prev (flat_map (fun n => to_bytes (VReference n)) (ref_deltas prev l) ++ r)
  = OK (map VReference l, 4 * length l).
Proof.
  induction 1 as [|v l Hv Hl IH]; intros i prev r Hi; cbn [length refs_from ref_deltas flat_map map].
  - reflexivity.
  - rewrite <- app_assoc.
    rewrite (from_to_bytes (VReference (wrapZ 32 (v - prev)))) by apply wrap32_range.
    cbn [stored]. change (bytes_len _) with 4. rewrite app_length, b_ref_length.
    destruct (_ <? _)%nat eqn:E; [lia|].
    rewrite skipn_app_exact by apply b_ref_length.
    destruct (Nat.eqb_spec i 0); [lia|].
    rewrite delta_undo by assumption. rewrite IH by lia. cbn [obind].
    do 2 f_equal. lia.
Qed.
Lemma refs_from_encode l r : Forall (int_range 32) l ->
  refs_from (length l) 0 0 (flat_map (fun n => to_bytes (VReference n)) (ref_encode l) ++ r)
  = OK (map VReference l, 4 * length l).
Proof.
  destruct 1 as [|v l Hv Hl]; [reflexivity|].
  cbn [length refs_from ref_encode flat_map map]. rewrite <- app_assoc.
  rewrite (from_to_bytes (VReference v)) by exact Hv.
  cbn [stored]. change (bytes_len _) with 4. rewrite app_length, b_ref_length.
  destruct (_ <? _)%nat eqn:E; [lia|].
  rewrite skipn_app_exact by apply b_ref_length. cbn [Nat.eqb].
  rewrite refs_from_app by (auto; lia). cbn [obind]. do 2 f_equal. lia.
Qed.
Lemma ref_encode_length l : length (ref_encode l) = length l.
Proof.
  destruct l as [|v l]; cbn; [reflexivity|]. f_equal.
  revert v; induction l as [|w l IH]; intros v; cbn; [reflexivity|]. now rewrite IH.
Qed.
Lemma ref_bytes_length l : length (flat_map (fun n => to_bytes (VReference n)) l) = 4 * length l.
Proof. apply flat_map_length_const. intros. apply b_ref_length. Qed.

(** ** CFrame arrays *)
Definition is_cf t := match t with tCFrame | tCFrameQuat => true | _ => false end.
Lemma is_cf_spec t : is_cf t = true <-> is_cframe_type t.
Proof. unfold is_cframe_type. destruct t; cbn; intuition discriminate. Qed.

Definition head_len (v : value) : nat := length (cframe_head v).
Lemma cframe_len v : is_cf (vtype v) = true -> wf_value v -> head_len v + 12 = bytes_len v.
Proof.
  intros Ht Hv. rewrite <- to_bytes_length by assumption. unfold head_len.
  destruct v; try discriminate Ht; cbn [cframe_head to_bytes length]; rewrite app_length, b_vec3_length; lia.
Qed.
Lemma cframe_head_cond v r : is_cf (vtype v) = true -> wf_value v -> 12 <= length r ->
  exists c h, cframe_head v = c :: h /\
  checkLengthCond (vtype v) (cframe_head v ++ r) = OK (c, h ++ r, cond_size (vtype v) c).
Proof.
  intros Ht Hv Hr. pose proof (cframe_len v Ht Hv) as Hl. unfold head_len in Hl.
  destruct (cframe_head v) as [|c h] eqn:E; [destruct v; discriminate|].
  exists c, h. split; [reflexivity|]. unfold checkLengthCond. cbn [app].
  assert (cond_size (vtype v) c = bytes_len v) as Hcs by (destruct v; try discriminate Ht; cbn [cframe_head] in E; injection E as <- _; reflexivity).
  rewrite Hcs. destruct (_ <? _)%nat eqn:E2; [|reflexivity].
  apply Nat.ltb_lt in E2. cbn [length] in *. rewrite app_length in E2. lia.
Qed.

Definition no_pos (v : value) : value := set_pos (stored v) vec3_zero.

Lemma heads_from_app t vs : is_cf t = true -> wf_elems t vs -> forall i r, 12 * length vs <= length r ->
  heads_from t (length vs) i (flat_map cframe_head vs ++ r)
  = OK (map no_pos vs, r, length (flat_map cframe_head vs)).
Proof.
  intros Hc. induction 1 as [|v vs [Ht Hv] Hvs IH]; intros i r Hr;
    cbn [length heads_from flat_map map] in *; [reflexivity|].
  subst t.
  rewrite <- app_assoc.
  destruct (cframe_head_cond v (flat_map cframe_head vs ++ r) Hc Hv) as (c & h & Eh & Ec).
  { rewrite app_length. lia. }
  rewrite Ec.
  destruct v; try discriminate Hc; cbn [vtype cframe_head] in Eh |- *.
  - injection Eh as <- <-. destruct Hv as (H9 & Hf & Hp).
    unfold no_pos at 1; cbn [stored set_pos].
    destruct (Byte.eqb special x00) eqn:E; cbn [set_pos].
    + rewrite <- H9 at 1. rewrite rd_floats_app by assumption. cbn [obind].
      cbn [vtype] in IH. rewrite IH by lia. cbn [obind length app].
      rewrite app_length, b_rotation_length, H9. reflexivity.
    + cbn [app obind]. cbn [vtype] in IH. rewrite IH by lia. reflexivity.
  - injection Eh as <- <-. destruct Hv as (Hx & Hy & Hz & Hw & Hp).
    unfold no_pos at 1; cbn [stored set_pos].
    destruct (Byte.eqb special x00) eqn:E; cbn [set_pos].
    + rewrite rd_quat_app by assumption. cbn [obind].
      cbn [vtype] in IH. rewrite IH by lia. cbn [obind length app].
      unfold b_quat, le32. rewrite !app_length, !le_bytes_length. reflexivity.
    + cbn [app obind]. cbn [vtype] in IH. rewrite IH by lia. reflexivity.
Qed.

Lemma set_pos_back v : is_cf (vtype v) = true -> set_pos (no_pos v) (cframe_pos v) = stored v.
Proof. destruct v; try discriminate; intros _; unfold no_pos; cbn; destruct (Byte.eqb special x00); reflexivity. Qed.

Lemma pos_from_app t vs : is_cf t = true -> wf_elems t vs -> forall i r,
  pos_from (map no_pos vs) i (flat_map (fun v => b_vec3 (cframe_pos v)) vs ++ r)
  = OK (map stored vs, 12 * length vs).
Proof.
  intros Hc. induction 1 as [|v vs [Ht Hv] Hvs IH]; intros i r; cbn [length pos_from flat_map map]; [reflexivity|].
  subst t. rewrite <- app_assoc.
  rewrite fb_vec3_app by (destruct v; try discriminate Hc; apply Hv).
  rewrite app_length, b_vec3_length.
  destruct (_ <? _)%nat eqn:E; [lia|].
  rewrite skipn_app_exact by apply b_vec3_length. rewrite IH. cbn [obind].
  rewrite set_pos_back by exact Hc. do 2 f_equal. lia.
Qed.
Lemma pos_bytes_length vs : length (flat_map (fun v => b_vec3 (cframe_pos v)) vs) = length vs * 12.
Proof. rewrite (flat_map_length_const _ 12); [lia|]. intros. apply b_vec3_length. Qed.

Lemma cframes_bytes_ok vs : vs <> [] ->
  cframes_bytes vs = OK (flat_map cframe_head vs ++ tr (length vs) 12 (flat_map (fun v => b_vec3 (cframe_pos v)) vs)).
Proof.
  intros Hn. unfold cframes_bytes. change zVector3 with 12.
  rewrite (interleave_tr _ 12 (length vs)); [reflexivity | lia | destruct vs; [congruence|discriminate] | apply pos_bytes_length].
Qed.
Lemma cframes_bytes_nil : cframes_bytes [] = Panic.
Proof. reflexivity. Qed.

Lemma head_sum t vs : is_cf t = true -> wf_elems t vs ->
  length (flat_map cframe_head vs) + 12 * length vs = sum_len vs.
Proof.
  intros Hc Hvs. induction Hvs as [|v vs [Ht Hv] Hvs IH]; cbn [flat_map length sum_len fold_right] in *; [reflexivity|].
  rewrite app_length. subst t. pose proof (cframe_len v Hc Hv). unfold head_len in *.
  fold (sum_len vs). lia.
Qed.
Lemma cframes_from_app spare t vs r : is_cf t = true -> wf_elems t vs ->
  cframes_from spare t (length vs)
    ((flat_map cframe_head vs ++ tr (length vs) 12 (flat_map (fun v => b_vec3 (cframe_pos v)) vs)) ++ r)
  = OK (map stored vs, sum_len vs).
Proof.
  intros Hc Hvs. unfold cframes_from.
  set (P := flat_map (fun v => b_vec3 (cframe_pos v)) vs).
  set (T := tr (length vs) 12 P).
  assert (HT : length T = length vs * 12) by apply tr_length.
  rewrite <- app_assoc.
  rewrite (heads_from_app t vs) by (auto; rewrite app_length; lia). cbn [obind].
  change zVector3 with 12.
  rewrite app_length.
  destruct (_ <? _)%nat eqn:E; [lia|].
  rewrite <- app_assoc. rewrite firstn_app_exact by exact HT.
  rewrite (deinterleave_tr T 12 (length vs)) by (auto; lia). cbn [obind].
  assert (tr 12 (length vs) T = P) as -> by (apply tr_tr, pos_bytes_length).
  rewrite skipn_app_exact by exact HT.
  assert (HP : length P = length vs * 12) by apply pos_bytes_length.
  rewrite firstn_all2 by (rewrite app_length; lia).
  unfold P. rewrite (pos_from_app t) by assumption. cbn [obind].
  do 2 f_equal. now apply head_sum with t.
Qed.

(** ** Plain arrays: C11 *)
Definition enc_ok (t : tid) (vs : list value) : Prop := vs <> [] \/ (interleaved t = false /\ is_cf t = false).

Lemma wf_not_opt t vs : wf_elems t vs -> vs <> [] -> t <> tOptional.
Proof. intros H Hn. destruct H as [|v vs [<- _] _]; [congruence | apply vtype_not_opt]. Qed.

Lemma raw_length t vs r : wf_elems t vs -> arr_raw t vs = OK r ->
  length r = sum_len vs.
Proof.
  intros Hvs H. unfold arr_raw in H.
  destruct (is_cf t) eqn:Hc.
  - assert (cframes_bytes vs = OK r) as Hr by (destruct t; try discriminate Hc; exact H).
    destruct vs as [|v vs']; [discriminate|].
    rewrite cframes_bytes_ok in Hr by discriminate. injection Hr as <-.
    rewrite app_length, tr_length, <- (head_sum t (v :: vs') Hc Hvs). cbn [flat_map length]. lia.
  - destruct (tid_eqb t tReference) eqn:E.
    + assert (t = tReference) as -> by (destruct t; try discriminate; reflexivity).
      injection H as <-. rewrite ref_bytes_length, ref_encode_length, map_length.
      rewrite (sum_len_const tReference vs 4); [lia | assumption |].
      intros w Hw. destruct w; try discriminate Hw. reflexivity.
    + assert (r = flat_map to_bytes vs) as -> by (destruct t; try discriminate; injection H as <-; reflexivity).
      now apply flat_to_bytes_length with t.
Qed.

Lemma arr_raw_ok t vs : enc_ok t vs -> exists r, arr_raw t vs = OK r.
Proof.
  intros H. unfold arr_raw.
  destruct (is_cf t) eqn:Hc.
  - destruct H as [Hn|[_ H]]; [|congruence].
    destruct t; try discriminate Hc; rewrite cframes_bytes_ok by assumption; eauto.
  - destruct t; try discriminate Hc; eauto.
Qed.

Lemma arr_to_bytes1_ok t vs : wf_elems t vs -> enc_ok t vs ->
  exists r, arr_to_bytes1 t vs = OK r /\ length r = sum_len vs.
Proof.
  intros Hvs Hok. unfold arr_to_bytes1. destruct (arr_raw_ok t vs Hok) as [r Hr].
  pose proof (raw_length t vs r Hvs Hr) as Hl. rewrite Hr. cbn [obind].
  destruct (interleaved t) eqn:Hi; [|eauto].
  destruct (interleaved_size t Hi) as (s & Hs & Hz & Hw).
  destruct Hok as [Hn|[Ho _]]; [|congruence].
  rewrite (sum_len_const t vs s Hvs Hw) in Hl.
  rewrite Hz, (interleave_tr r s (length vs)); [|assumption | destruct vs; [congruence|discriminate] | assumption].
  eexists; split; [reflexivity|]. rewrite tr_length, (sum_len_const t vs s Hvs Hw). reflexivity.
Qed.

Lemma interleaved_not_cf t : interleaved t = true -> is_cf t = false.
Proof. destruct t; try discriminate; reflexivity. Qed.

(** Non-interleaved arrays may be followed by other bytes. *)
Lemma arr_roundtrip1 spare t vs b r : wf_elems t vs -> arr_to_bytes1 t vs = OK b ->
  (interleaved t = true -> r = []) ->
  arr_from1 spare t (length vs) (b ++ r) = OK (map stored vs, length b).
Proof.
  intros Hvs Hb Hr. unfold arr_to_bytes1 in Hb.
  destruct (arr_raw t vs) as [raw| | |] eqn:Hraw; try discriminate. cbn [obind] in Hb.
  pose proof (raw_length t vs raw Hvs Hraw) as Hl.
  unfold arr_from1.
  destruct (interleaved t) eqn:Hi.
  - rewrite Hr, app_nil_r by reflexivity.
    destruct (interleaved_size t Hi) as (s & Hs & Hz & Hw). rewrite Hz in *.
    rewrite (sum_len_const t vs s Hvs Hw) in Hl.
    destruct vs as [|v0 vs0].
    { exfalso. destruct raw; [|discriminate]. rewrite interleave_empty_panics in Hb by lia. discriminate. }
    rewrite (interleave_tr raw s (length (v0 :: vs0))) in Hb by (auto; discriminate).
    injection Hb as <-. set (vs := v0 :: vs0) in *.
    rewrite (deinterleave_tr _ s (length vs)) by (auto; apply tr_length). cbn [obind].
    rewrite tr_tr by assumption. rewrite tr_length.
    destruct (tid_eqb t tReference) eqn:E.
    + assert (t = tReference) as -> by (destruct t; try discriminate; reflexivity).
      assert (raw = flat_map (fun n => to_bytes (VReference n)) (ref_encode (map ref_val vs))) as ->
        by (unfold arr_raw in Hraw; congruence).
      destruct (ref_vals vs Hvs) as [Hm Hf].
      pose proof (refs_from_encode (map ref_val vs) [] Hf) as Href.
      rewrite Hm, map_length, app_nil_r in Href. rewrite Href. clear Href.
      assert (s = 4) as -> by (cbn in Hz; change zReference with 4 in Hz; lia).
      assert (map stored vs = vs) as ->.
      { clear -Hvs. induction Hvs as [|v vs [Ht _] _ IH]; cbn; [reflexivity|].
        destruct v; try discriminate. cbn. now rewrite IH. }
      do 2 f_equal. unfold vs; cbn [length]; lia.
    + assert (raw = flat_map to_bytes vs) as ->
        by (destruct t; try discriminate; injection Hraw as <-; reflexivity).
      assert (elems_from t (length vs) 0 (flat_map to_bytes vs) = OK (map stored vs, sum_len vs)) as H.
      { rewrite <- (app_nil_r (flat_map to_bytes vs)). now apply elems_from_app. }
      rewrite (sum_len_const t vs s Hvs Hw) in H.
      destruct t; try discriminate; exact H.
  - injection Hb as <-. cbn [obind]. rewrite Hl.
    destruct (is_cf t) eqn:Hc.
    + assert (cframes_bytes vs = OK raw) as Hcb by (destruct t; try discriminate Hc; exact Hraw).
      destruct vs as [|v0 vs0]; [discriminate|].
      rewrite cframes_bytes_ok in Hcb by discriminate. injection Hcb as <-.
      rewrite <- (cframes_from_app spare t (v0 :: vs0) r Hc Hvs).
      destruct t; try discriminate Hc; reflexivity.
    + assert (raw = flat_map to_bytes vs) as ->
        by (destruct t; try discriminate; injection Hraw as <-; reflexivity).
      rewrite <- (elems_from_app t vs Hvs 0 r).
      destruct t; try discriminate; reflexivity.
Qed.

Lemma tid_of_byte_byte t : tid_of_byte (tid_byte t) = Some t.
Proof. destruct t; reflexivity. Qed.
Lemma tid_of_byte_some b t : tid_of_byte b = Some t -> b = tid_byte t.
Proof. destruct b; cbn; intros H; inversion H; reflexivity. Qed.

Lemma typeArray_plain spare t vs b r : wf_elems t vs -> t <> tOptional ->
  typeArrayToBytes (ARR t vs) = OK b ->
  (interleaved t = true -> r = []) ->
  typeArrayFromBytes spare (b ++ r) (length vs) = OK (ARR t (map stored vs), length b).
Proof.
  intros Hvs Ht Hb Hr. cbn [typeArrayToBytes] in Hb.
  destruct (arr_to_bytes1 t vs) as [x| | |] eqn:Hx; try discriminate. cbn [obind] in Hb.
  injection Hb as <-. cbn [app typeArrayFromBytes]. rewrite tid_of_byte_byte.
  rewrite (arr_roundtrip1 spare t vs x r Hvs Hx Hr). cbn [obind length].
  destruct t; try congruence; reflexivity.
Qed.

(** ** Optional arrays: C12 *)
Lemma array_rect' (P : array -> Prop) :
  (forall t vs, P (ARR t vs)) ->
  (forall v ps, (forall w, v = Some w -> P w) -> P (AOPT v ps)) -> forall a, P a.
Proof.
  intros H1 H2. fix IH 1. intros [t vs|[v|] ps]; [apply H1| |]; apply H2; intros w [= <-]. apply IH.
Qed.
Lemma map_bool_stored ps : map bool_of (map stored (map VBool ps)) = ps.
Proof. induction ps as [|p ps IH]; cbn; [reflexivity | now rewrite IH]. Qed.
Lemma wf_bools ps : wf_elems tBool (map VBool ps).
Proof. induction ps; constructor; cbn; auto. Qed.

Lemma array_after_id a : interleaved (elem_type a) = false -> forall b, array_after a b = b.
Proof.
  induction a as [t vs|[v|] ps IH] using array_rect'; intros Hi b; destruct b as [|tb r]; try reflexivity; cbn in *.
  - now rewrite Hi.
  - now rewrite (IH v eq_refl Hi).
Qed.
Lemma elem_type_stored a : elem_type (stored_array a) = elem_type a.
Proof. induction a as [t vs|[v|] ps IH] using array_rect'; cbn; auto. Qed.

Lemma optional_roundtrip spare a : wf_array a -> interleaved (elem_type a) = false ->
  forall b r, typeArrayToBytes a = OK b ->
  typeArrayFromBytes spare (b ++ r) (arr_len a) = OK (stored_array a, length b).
Proof.
  induction 1 as [t vs Ht Hvs | v ps Hv IH Hps]; intros Hi b r Hb.
  - cbn [elem_type arr_len stored_array] in *. apply typeArray_plain; auto. congruence.
  - cbn [elem_type arr_len stored_array typeArrayToBytes] in *.
    destruct (typeArrayToBytes v) as [x| | |] eqn:Hx; try discriminate. cbn [obind] in Hb.
    destruct (arr_to_bytes1 tBool (map VBool ps)) as [y| | |] eqn:Hy; try discriminate. cbn [obind] in Hb.
    injection Hb as <-. cbn [app typeArrayFromBytes tid_of_byte tid_byte].
    rewrite <- app_assoc. rewrite (IH Hi x _ eq_refl). cbn [obind].
    rewrite app_length. destruct (_ <? _)%nat eqn:E; [lia|].
    rewrite array_after_id by (rewrite elem_type_stored; exact Hi).
    rewrite skipn_app_exact by reflexivity. cbn [app tid_of_byte].
    pose proof (arr_roundtrip1 spare tBool (map VBool ps) y r (wf_bools ps) Hy) as H.
    rewrite map_length, Hps in H. rewrite H by discriminate.
    cbn [obind length]. rewrite map_bool_stored, app_length. cbn [length].
    unfold zb. reflexivity || (do 2 f_equal; lia).
Qed.

(** Interleaved inner types: the presence block is swept into the
    deinterleaving, so decoding fails whenever the sizes do not divide. *)
Lemma optional_interleaved_fails spare t vs ps b : wf_elems t vs -> interleaved t = true ->
  length ps = length vs ->
  typeArrayToBytes (AOPT (Some (ARR t vs)) ps) = OK b ->
  (length vs + 1) mod Z.to_nat (tid_size t) <> 0 ->
  exists e, typeArrayFromBytes spare b (length vs) = Err e.
Proof.
  intros Hvs Hi Hps Hb Hm. cbn [typeArrayToBytes] in Hb.
  destruct (arr_to_bytes1 t vs) as [x| | |] eqn:Hx; try discriminate. cbn [obind] in Hb.
  destruct (arr_to_bytes1 tBool (map VBool ps)) as [y| | |] eqn:Hy; try discriminate. cbn [obind] in Hb.
  injection Hb as <-.
  assert (Hne : vs <> []).
  { intros ->. unfold arr_to_bytes1 in Hx.
    destruct (interleaved_size t Hi) as (s & Hs & Hz & Hw). rewrite Hi, Hz in Hx.
    destruct t; try discriminate Hi; cbn [arr_raw obind flat_map map ref_encode] in Hx;
      rewrite interleave_empty_panics in Hx by lia; discriminate. }
  destruct (arr_to_bytes1_ok t vs Hvs (or_introl Hne)) as (x' & Hx' & Hlx).
  assert (x' = x) as -> by congruence.
  destruct (arr_to_bytes1_ok tBool (map VBool ps) (wf_bools ps)) as (y' & Hy' & Hly);
    [right; split; reflexivity|]. assert (y' = y) as -> by congruence.
  destruct (interleaved_size t Hi) as (s & Hs & Hz & Hw).
  rewrite (sum_len_const t vs s Hvs Hw) in Hlx.
  rewrite (sum_len_const tBool (map VBool ps) 1) in Hly;
    [|apply wf_bools | intros w Hw'; destruct w; try discriminate Hw'; reflexivity].
  rewrite map_length in Hly.
  cbn [app typeArrayFromBytes tid_of_byte tid_byte].
  change ([tid_byte t] ++ x) with (tid_byte t :: x) in *. rewrite tid_of_byte_byte.
  rewrite Hz, Nat2Z.id in Hm.
  assert (Hd : exists e, arr_from1 spare t (length vs) (x ++ x02 :: y) = Err e).
  { unfold arr_from1. rewrite Hi, Hz.
    destruct (deinterleave_cases (x ++ x02 :: y) (Z.of_nat s)) as (_ & _ & Hc).
    destruct Hc as [_ Hc]. destruct Hc as [e ->]; [|eexists; reflexivity].
    right. rewrite Nat2Z.id, app_length. cbn [length]. rewrite Hlx, Hly.
    replace (length vs * s + S (length ps * 1)) with (length vs + 1 + length vs * s) by lia.
    now rewrite Nat.mod_add. }
  destruct Hd as [e Hd].
  exists e. destruct t; try discriminate Hi; cbn [obind]; rewrite Hd; reflexivity.
Qed.

(** ** C13: arbitrary input *)
Lemma elems_from_total t n : t <> tOptional -> forall i b,
  (exists e, elems_from t n i b = Err e) \/
  (exists vs m, elems_from t n i b = OK (vs, m) /\ length vs = n /\ m <= length b /\ wf_elems t vs /\ map stored vs = vs).
Proof.
  intros Ht. induction n as [|n IH]; intros i b; cbn [elems_from].
  - right. exists [], 0. repeat split; auto; [lia | constructor].
  - destruct (from_bytes_total t b Ht) as [[e ->]|(v & nn & -> & G)]; [left; eauto|].
    destruct G as (G1 & G2 & G3 & G4 & G5 & _).
    destruct (_ <? _)%nat eqn:E; [lia|].
    destruct (IH (S i) (skipn nn b)) as [[e ->]|(vs & m & -> & Hl & Hm & Hw & Hst)]; [left; eexists; reflexivity|].
    right. exists (v :: vs), (nn + m). cbn [obind length map]. rewrite skipn_length in Hm.
    repeat split; auto; [lia | constructor; auto | congruence].
Qed.
Lemma from_ref_case b :
  (exists e, from_bytes tReference b = Err e) \/
  (exists v, from_bytes tReference b = OK (VReference v, 4) /\ 4 <= length b /\ int_range 32 v).
Proof.
  destruct (from_bytes_total tReference b ltac:(discriminate)) as [[e ->]|(v & n & -> & G)]; [left; eauto|].
  destruct G as (G1 & G2 & G3 & G4 & G5 & _). destruct v; try discriminate G1.
  right. exists n0. cbn in G4. change zReference with 4 in G4. subst n. auto.
Qed.
Lemma refs_from_total n : forall i prev b,
  (exists e, refs_from n i prev b = Err e) \/
  (exists vs m, refs_from n i prev b = OK (vs, m) /\ length vs = n /\ m <= length b /\ wf_elems tReference vs).
Proof.
  induction n as [|n IH]; intros i prev b; cbn [refs_from].
  - right. exists [], 0. repeat split; auto; [lia | constructor].
  - destruct (from_ref_case b) as [[e ->]|(v & -> & Hl & Hv)]; [left; eauto|].
    destruct (_ <? _)%nat eqn:E; [lia|].
    set (v' := if (i =? 0)%nat then v else wrapZ 32 (v + prev)).
    assert (Hv' : int_range 32 v') by (unfold v'; destruct (i =? 0)%nat; [exact Hv | apply wrap32_range]).
    destruct (IH (S i) v' (skipn 4 b)) as [[e ->]|(vs & m & -> & Hl2 & Hm & Hw)]; [left; eexists; reflexivity|].
    right. exists (VReference v' :: vs), (4 + m). cbn [obind length]. rewrite skipn_length in Hm.
    repeat split; auto; [lia | constructor; auto].
Qed.
Lemma heads_from_total t n : is_cf t = true -> forall i b,
  (exists e, heads_from t n i b = Err e) \/
  (exists vs r m, heads_from t n i b = OK (vs, r, m) /\ length vs = n /\ m + length r = length b /\
     m <= 37 * n /\ wf_elems t vs /\ map stored vs = vs).
Proof.
  intros Hc. induction n as [|n IH]; intros i b; cbn [heads_from].
  - right. exists [], b, 0. repeat split; auto; try lia; constructor.
  - destruct (clcond_case t b) as [[e ->]|(c & r & -> & -> & Hl)]; [left; eexists; reflexivity|].
    assert (Hv : exists v r2 k, (match t with
             | tCFrameQuat =>
                 if Byte.eqb c x00
                 then ' ((x, y, z, w), b) <- rd_quat r ;;
                      OK (VCFrameQuat c x y z w vec3_zero, b, zCFrameQuatSp + zCFrameQuatQ)
                 else OK (VCFrameQuat c 0 0 0 0 vec3_zero, r, zCFrameQuatSp)
             | _ =>
                 if Byte.eqb c x00
                 then ' (rot, b) <- rd_floats 9 r ;;
                      OK (VCFrame c rot vec3_zero, b, zCFrameSp + zCFrameRo)
                 else OK (VCFrame c (repeat 0%N 9) vec3_zero, r, zCFrameSp)
             end : res (value * bytes * nat)) = OK (v, r2, k) /\ k + length r2 = S (length r) /\ k <= 37 /\
             vtype v = t /\ wf_value v /\ stored v = v).
    { assert (Hz : wf_vec3 vec3_zero) by (repeat split; reflexivity).
      destruct t; try discriminate Hc; cbn [cond_size] in Hl; destruct (Byte.eqb c x00) eqn:Ec.
      - destruct (rd_floats_case 9 r) as (l & r2 & -> & Hr & H9 & Hf).
        { unfold zCFrameFull, zCFrameSp, zCFrameRo, zCondLen in Hl. sizes. lia. }
        exists (VCFrame c l vec3_zero), r2, 37. cbn [obind].
        pose proof (f_equal (@length byte) Hr) as L. rewrite app_length, b_rotation_length, H9 in L.
        repeat split; auto; try lia; try (apply Hz). cbn. now rewrite Ec.
      - exists (VCFrame c (repeat 0%N 9) vec3_zero), r, 1.
        repeat split; auto; try lia; try (apply Hz); try (cbn; now rewrite Ec); repeat constructor.
      - destruct (rd_quat_case r) as (x & y & z & w & r2 & -> & Hr & Hx & Hy & Hz' & Hw).
        { unfold zCFrameQuatFull, zCFrameQuatSp, zCFrameQuatQ, zCondLen in Hl. sizes. lia. }
        exists (VCFrameQuat c x y z w vec3_zero), r2, 17. cbn [obind].
        pose proof (f_equal (@length byte) Hr) as L. unfold b_quat, le32 in L. rewrite !app_length, !le_bytes_length in L.
        repeat split; auto; try lia; try (apply Hz). cbn. now rewrite Ec.
      - exists (VCFrameQuat c 0 0 0 0 vec3_zero), r, 1.
        repeat split; auto; try lia; try (apply Hz). cbn; now rewrite Ec. }
    destruct Hv as (v & r2 & k & -> & Hk & Hk2 & Hvt & Hvw & Hvs). cbn [obind].
    destruct (IH (S i) r2) as [[e ->]|(vs & r3 & m & -> & Hl2 & Hm & Hm2 & Hw & Hst)]; [left; eexists; reflexivity|].
    right. exists (v :: vs), r3, (k + m). cbn [obind length map].
    repeat split; auto; try lia; [constructor; auto | congruence].
Qed.
Lemma pos_from_total t vs : is_cf t = true -> wf_elems t vs -> map stored vs = vs -> forall i b,
  (exists e, pos_from vs i b = Err e) \/
  (exists vs' m, pos_from vs i b = OK (vs', m) /\ length vs' = length vs /\ m <= length b /\
     wf_elems t vs' /\ map stored vs' = vs').
Proof.
  intros Hc H. induction H as [|v vs [Ht Hv] Hvs IH]; intros Hst i b; cbn [pos_from].
  - right. exists [], 0. repeat split; auto; [lia | constructor].
  - cbn [map] in Hst. injection Hst as Hst1 Hst2.
    assert (Hfb : (exists e, fb_vec3 b = Err e) \/ exists p, fb_vec3 b = OK (p, 12) /\ 12 <= length b /\ wf_vec3 p).
    { destruct (clc_case zVector3 b) as [[e E]|[_ Hl]].
      - left. exists e. unfold fb_vec3. now rewrite E.
      - sizes. destruct (adv_vec3_case b ltac:(lia)) as (p & r & E & _ & Hp). right. exists p. repeat split; auto; try lia; apply Hp. }
    destruct Hfb as [[e ->]|(p & -> & Hl & Hp)]; [left; eexists; reflexivity|].
    destruct (_ <? _)%nat eqn:E; [lia|].
    destruct (IH Hst2 (S i) (skipn 12 b)) as [[e ->]|(vs' & m & -> & Hl2 & Hm & Hw & Hs2)]; [left; eexists; reflexivity|].
    right. exists (set_pos v p :: vs'), (12 + m). cbn [obind length map]. rewrite skipn_length in Hm.
    assert (H3 : vtype (set_pos v p) = t /\ wf_value (set_pos v p) /\ stored (set_pos v p) = set_pos v p).
    { subst t. destruct v; try discriminate Hc; cbn in *.
      - repeat split; try tauto; try apply Hp. destruct (Byte.eqb special x00); [reflexivity|]. congruence.
      - repeat split; try tauto; try apply Hp. destruct (Byte.eqb special x00); [reflexivity|]. congruence. }
    destruct H3 as (H3 & H4 & H5).
    repeat split; auto; [lia | constructor; auto | congruence].
Qed.

(** A plain array decode panics only in the CFrame case, when the bytes left
    after the rotation ids cannot hold the positions. *)
Definition arr_good spare t n b (o : res (list value * nat)) : Prop :=
  (exists e, o = Err e) \/
  (exists vs m, o = OK (vs, m) /\ length vs = n /\ m <= length b /\ wf_elems t vs) \/
  (o = Panic /\ is_cf t = true /\ exists vs r m, heads_from t n 0 b = OK (vs, r, m) /\ length r + spare < 12 * n).

Lemma deinterleave_length b z b' : deinterleave b z = OK b' -> length b' = length b.
Proof.
  unfold deinterleave. destruct (z <=? 0)%Z eqn:E; [discriminate|].
  destruct (Nat.eqb_spec (length b mod Z.to_nat z) 0) as [Hm|Hm]; [|discriminate]. cbn [negb].
  pose proof (Nat.div_mod (length b) (Z.to_nat z) ltac:(lia)) as Hd.
  rewrite (transpose_tr _ (length b / Z.to_nat z)) by lia.
  intros [= <-]. rewrite tr_length. lia.
Qed.

Lemma cframes_from_total spare t n b : is_cf t = true -> arr_good spare t n b (cframes_from spare t n b).
Proof.
  intros Hc. unfold cframes_from, arr_good.
  destruct (heads_from_total t n Hc 0 b) as [[e ->]|(vs & r & m & -> & Hl & Hm & Hm2 & Hw & Hst)];
    [left; eexists; reflexivity|]. cbn [obind]. change zVector3 with 12.
  destruct (_ <? _)%nat eqn:E.
  - right. right. repeat split; auto. exists vs, r, m. split; [reflexivity|]. lia.
  - assert (Hk : length (firstn (n * 12) (r ++ repeat x00 spare)) = n * 12)
      by (rewrite firstn_length, app_length, repeat_length; lia).
    rewrite (deinterleave_tr _ 12 n) by (auto; lia). cbn [obind].
    set (b2 := firstn (length r) _).
    destruct (pos_from_total t vs Hc Hw Hst 0 b2) as [[e ->]|(vs' & m2 & -> & Hl2 & Hm3 & Hw2 & _)];
      [left; eexists; reflexivity|].
    right; left. cbn [obind]. exists vs', (m + m2). repeat split; auto; try lia.
    unfold b2 in Hm3. rewrite firstn_length in Hm3. lia.
Qed.

Lemma arr_from1_total spare t n b : t <> tOptional -> arr_good spare t n b (arr_from1 spare t n b).
Proof.
  intros Ht. unfold arr_from1.
  destruct (interleaved t) eqn:Hi.
  - destruct (deinterleave b (tid_size t)) as [b'|e| |] eqn:Ed;
      [|left; eexists; reflexivity| |];
      [|exfalso; destruct (deinterleave_cases b (tid_size t)) as (H1 & H2 & _); congruence..].
    cbn [obind]. pose proof (deinterleave_length _ _ _ Ed) as Hl.
    destruct (tid_eqb t tReference) eqn:E.
    + assert (t = tReference) as -> by (destruct t; try discriminate; reflexivity).
      destruct (refs_from_total n 0 0 b') as [[e ->]|(vs & m & -> & H1 & H2 & H3)]; [left; eexists; reflexivity|].
      right; left. exists vs, m. repeat split; auto; lia.
    + assert (Hel : arr_good spare t n b (elems_from t n 0 b')).
      { destruct (elems_from_total t n Ht 0 b') as [[e ->]|(vs & m & -> & H1 & H2 & H3 & _)]; [left; eexists; reflexivity|].
        right; left. exists vs, m. repeat split; auto; lia. }
      destruct t; try discriminate; exact Hel.
  - cbn [obind]. destruct (is_cf t) eqn:Hc.
    + pose proof (cframes_from_total spare t n b Hc) as H. destruct t; try discriminate Hc; exact H.
    + assert (Hel : arr_good spare t n b (elems_from t n 0 b)).
      { destruct (elems_from_total t n Ht 0 b) as [[e ->]|(vs & m & -> & H1 & H2 & H3 & _)]; [left; eexists; reflexivity|].
        right; left. exists vs, m. repeat split; auto; lia. }
      destruct t; try discriminate; try congruence; exact Hel.
Qed.

Definition panics_on spare n b : Prop :=
  exists k t rest vs r m,
    b = repeat (tid_byte tOptional) k ++ tid_byte t :: rest /\ is_cframe_type t /\
    heads_from t n 0 rest = OK (vs, r, m) /\ length r + spare < 12 * n.

Lemma typeArray_plain_eq spare tb t rest n : tid_of_byte tb = Some t -> t <> tOptional ->
  typeArrayFromBytes spare (tb :: rest) n = (' (vs, nn) <- arr_from1 spare t n rest ;; OK (ARR t vs, zb + nn)).
Proof. intros H Ht. cbn [typeArrayFromBytes]. rewrite H. destruct t; try congruence; reflexivity. Qed.

Lemma array_after_length a : forall b, length (array_after a b) = length b.
Proof.
  induction a as [t vs|[v|] ps IH] using array_rect'; intros [|tb r]; try reflexivity; cbn [array_after length]; f_equal.
  - destruct (interleaved t); [|reflexivity].
    destruct (deinterleave r (tid_size t)) eqn:E; try reflexivity. now apply deinterleave_length in E.
  - now apply IH.
Qed.

Lemma typeArrayFromBytes_total spare n b :
  (exists e, typeArrayFromBytes spare b n = Err e) \/
  (exists a m, typeArrayFromBytes spare b n = OK (a, m) /\ wf_array a /\ arr_len a = n /\ m <= length b) \/
  (typeArrayFromBytes spare b n = Panic /\ panics_on spare n b).
Proof.
  induction b as [|tb rest IH]; [left; eexists; reflexivity|].
  destruct (tid_of_byte tb) as [t|] eqn:Et; [|left; cbn; rewrite Et; eexists; reflexivity].
  destruct (tid_eqb t tOptional) eqn:Eo.
  - assert (t = tOptional) as -> by (destruct t; try discriminate; reflexivity).
    pose proof (tid_of_byte_some _ _ Et) as ->.
    cbn [typeArrayFromBytes tid_of_byte tid_byte].
    destruct IH as [[e ->]|[(a & m & -> & Hw & Ha & Hm)|(-> & Hp)]]; cbn [obind].
    + left; eexists; reflexivity.
    + destruct (_ <? _)%nat eqn:E; [lia|].
      destruct (skipn m (array_after a rest)) as [|pb r] eqn:Es; [left; eexists; reflexivity|].
      assert (Hr : length rest = m + S (length r)).
      { pose proof (f_equal (@length byte) Es) as L. rewrite skipn_length, array_after_length in L. cbn [length] in L. lia. }
      destruct (tid_of_byte pb) as [tp|] eqn:Ep; [|left; eexists; reflexivity].
      destruct (tid_eqb tp tBool) eqn:Eb.
      * assert (tp = tBool) as -> by (destruct tp; try discriminate; reflexivity).
        destruct (arr_from1_total spare tBool n r ltac:(discriminate))
          as [[e ->]|[(vs & k & -> & H1 & H2 & H3)|(-> & H1 & _)]];
          [left; eexists; reflexivity | | discriminate].
        right; left. cbn [obind]. eexists _, _. split; [reflexivity|].
        split; [|split]; [|cbn; assumption|cbn; sizes; lia].
        constructor; [assumption|]. rewrite map_length. congruence.
      * left. destruct tp; try discriminate; eexists; reflexivity.
    + right; right. split; [reflexivity|].
      destruct Hp as (k & t & r0 & vs & r & m & -> & H). exists (S k), t, r0, vs, r, m. split; [reflexivity|exact H].
  - assert (Ht : t <> tOptional) by (intros ->; discriminate).
    rewrite (typeArray_plain_eq spare tb t rest n Et Ht).
    destruct (arr_from1_total spare t n rest Ht)
      as [[e ->]|[(vs & k & -> & H1 & H2 & H3)|(-> & H1 & vs & r & m & H2 & H3)]]; cbn [obind].
    + left; eexists; reflexivity.
    + right; left. eexists _, _. split; [reflexivity|]. split; [|split]; [now constructor|exact H1|cbn; sizes; lia].
    + right; right. split; [reflexivity|]. exists 0, t, rest, vs, r, m.
      rewrite (tid_of_byte_some _ _ Et). split; [reflexivity|]. split; [now apply is_cf_spec|]. auto.
Qed.

(** The panic really occurs on every such input. *)
Lemma typeArrayFromBytes_panics spare n b : panics_on spare n b -> typeArrayFromBytes spare b n = Panic.
Proof.
  intros (k & t & rest & vs & r & m & -> & Ht & Hh & Hlt).
  induction k as [|k IH]; cbn [repeat app].
  - apply is_cf_spec in Ht.
    rewrite (typeArray_plain_eq spare _ t rest n (tid_of_byte_byte t)) by (intros ->; discriminate).
    unfold arr_from1. assert (interleaved t = false) as -> by (destruct t; try discriminate; reflexivity).
    cbn [obind].
    assert (cframes_from spare t n rest = Panic) as H.
    { unfold cframes_from. rewrite Hh. cbn [obind]. change zVector3 with 12.
      destruct (_ <? _)%nat eqn:E; [reflexivity|lia]. }
    destruct t; try discriminate Ht; rewrite H; reflexivity.
  - change (tid_byte tOptional) with x1e in *. cbn [typeArrayFromBytes tid_of_byte]. rewrite IH. reflexivity.
Qed.

(** ** Declared lengths of arrays: C07 *)
Lemma noninterleaved_len t vs : wf_elems t vs ->
  (if (0 <? tid_size t)%Z then length vs * Z.to_nat (tid_size t) else sum_len vs) = sum_len vs.
Proof.
  intros H. destruct (0 <? tid_size t)%Z eqn:E; [|reflexivity].
  symmetry. apply (sum_len_const t); [assumption|].
  intros w <-. destruct w; cbn in E |- *; try reflexivity; discriminate.
Qed.
Lemma interleave_length b z b' : interleave b z = OK b' -> length b' = length b.
Proof.
  unfold interleave. destruct (z <=? 0)%Z eqn:E; [discriminate|].
  destruct (Nat.eqb_spec (length b mod Z.to_nat z) 0) as [Hm|Hm]; [|discriminate]. cbn [negb].
  pose proof (Nat.div_mod (length b) (Z.to_nat z) ltac:(lia)) as Hd.
  destruct (Nat.eq_dec (length b / Z.to_nat z) 0) as [Hz|Hz].
  - rewrite Hz. discriminate.
  - rewrite (transpose_tr _ (Z.to_nat z)) by lia.
    intros [= <-]. rewrite tr_length. lia.
Qed.
Lemma arr_to_bytes1_length t vs b : wf_elems t vs -> arr_to_bytes1 t vs = OK b -> length b = sum_len vs.
Proof.
  intros Hvs H. unfold arr_to_bytes1 in H.
  destruct (arr_raw t vs) as [raw| | |] eqn:Hraw; try discriminate. cbn [obind] in H.
  pose proof (raw_length t vs raw Hvs Hraw) as Hl.
  destruct (interleaved t); [apply interleave_length in H; congruence | congruence].
Qed.
Lemma typeArrayToBytes_length a : wf_array a -> forall b, typeArrayToBytes a = OK b -> length b = 1 + arr_bytes_len a.
Proof.
  induction 1 as [t vs Ht Hvs | v ps Hv IH Hps]; intros b Hb; cbn [typeArrayToBytes arr_bytes_len] in *.
  - destruct (arr_to_bytes1 t vs) as [x| | |] eqn:Hx; try discriminate. cbn [obind] in Hb. injection Hb as <-.
    cbn [length]. rewrite (arr_to_bytes1_length t vs x Hvs Hx). fold (sum_len vs).
    now rewrite (noninterleaved_len t vs Hvs).
  - destruct (typeArrayToBytes v) as [x| | |] eqn:Hx; try discriminate. cbn [obind] in Hb.
    destruct (arr_to_bytes1 tBool (map VBool ps)) as [y| | |] eqn:Hy; try discriminate. cbn [obind] in Hb.
    injection Hb as <-. cbn [length]. rewrite app_length. cbn [length].
    rewrite (IH x eq_refl), (arr_to_bytes1_length tBool _ y (wf_bools ps) Hy).
    rewrite (sum_len_const tBool (map VBool ps) 1);
      [|apply wf_bools | intros w Hw'; destruct w; try discriminate Hw'; reflexivity].
    rewrite map_length. unfold zb. lia.
Qed.
(** Encoding a well-formed array fails (panics) exactly when a block that is
    interleaved has no elements. *)
Lemma typeArrayToBytes_panic t vs : wf_array (ARR t vs) ->
  (vs = [] /\ (interleaved t = true \/ is_cf t = true)) <-> typeArrayToBytes (ARR t vs) = Panic.
Proof.
  intros Hwf. inversion Hwf as [t' vs' Ht Hvs|]; subst. cbn [typeArrayToBytes]. split.
  - intros [-> [Hi|Hc]].
    + unfold arr_to_bytes1. destruct (interleaved_size t Hi) as (s & Hs & Hz & _). rewrite Hi, Hz.
      destruct t; try discriminate Hi; cbn [arr_raw obind flat_map map ref_encode];
        rewrite interleave_empty_panics by lia; reflexivity.
    + destruct t; try discriminate Hc; reflexivity.
  - intros H. destruct vs as [|v vs].
    + split; [reflexivity|]. destruct (interleaved t) eqn:Hi; [auto|]. destruct (is_cf t) eqn:Hc; [auto|].
      exfalso. destruct (arr_to_bytes1_ok t [] Hvs (or_intror (conj Hi Hc))) as (r & Hr & _).
      rewrite Hr in H. discriminate.
    + destruct (arr_to_bytes1_ok t (v :: vs) Hvs) as (r & Hr & _); [left; discriminate|].
      rewrite Hr in H. discriminate.
Qed.
(** Never an error. *)
Lemma typeArrayToBytes_ok a : wf_array a -> arr_len a <> 0 -> exists b, typeArrayToBytes a = OK b.
Proof.
  induction 1 as [t vs Ht Hvs | v ps Hv IH Hps]; intros Hn; cbn [typeArrayToBytes arr_len] in *.
  - destruct (arr_to_bytes1_ok t vs Hvs) as (r & -> & _); [left; destruct vs; [cbn in Hn; lia|discriminate]|].
    eexists; reflexivity.
  - destruct (IH Hn) as [x ->]. cbn [obind].
    destruct (arr_to_bytes1_ok tBool (map VBool ps) (wf_bools ps)) as (y & -> & _);
      [right; split; reflexivity|]. eexists; reflexivity.
Qed.

(** ** Reference lists: C10 *)
Lemma refArray_roundtrip ids : ids <> [] -> Forall (int_range 32) ids ->
  exists b, refArrayToBytes ids = OK b /\ length b = 4 * length ids /\ refArrayFromBytes b (length ids) = OK ids.
Proof.
  intros Hn Hf. unfold refArrayToBytes, refArrayFromBytes.
  assert (Hvs : wf_elems tReference (map VReference ids)).
  { clear Hn. induction Hf; constructor; auto. }
  destruct (arr_to_bytes1_ok tReference (map VReference ids) Hvs) as (b & Hb & Hl).
  { left. destruct ids; [congruence|discriminate]. }
  exists b. split; [exact Hb|]. split.
  - rewrite Hl, (sum_len_const tReference _ 4), map_length; [lia|exact Hvs|].
    intros w Hw; destruct w; try discriminate; reflexivity.
  - pose proof (arr_roundtrip1 0 tReference _ b [] Hvs Hb (fun _ => eq_refl)) as H.
    rewrite app_nil_r, map_length in H. rewrite H. cbn [obind].
    f_equal. rewrite !map_map. cbn. apply map_id.
Qed.
