(** RbxlResave.v - encoding a decoded tree again: the pieces. *)
From Coq Require Import Permutation Sorting.Sorted.
From Verif Require Import Base RbxlValues RbxlArrays RbxlModel RbxlFile RbxlFileProofs RbxValues Tree RbxlCodec
  SpecValues SpecArrays SpecModel SpecFile SpecTree SpecCodec TreeProofs SortProofs PropCodecValues RbxlCodecEnc RbxlCodecCols
  RbxlCodecOut RbxlCodecShape RbxlCodecDec RbxlCodecRound RbxlCodecImage.

(** ** The shared strings, in the order in which they are met *)
Definition row_strings (name : bytes) (x : inst) : list bytes :=
  match mfind (i_props x) name with Some (RSharedString s) => [s] | _ => [] end.
Definition col_strings (name : bytes) (ms : list inst) : list bytes := flat_map (row_strings name) ms.
Fixpoint share_all (ev : env) (ss : list bytes) (sh : shareds) : shareds :=
  match ss with [] => sh | s :: ss => share_all ev ss (snd (share ev s sh)) end.
Lemma share_all_app ev a b sh : share_all ev (a ++ b) sh = share_all ev b (share_all ev a sh).
Proof. revert sh. induction a as [|s a IH]; intros sh; cbn; [reflexivity|]. apply IH. Qed.
Lemma enc_value_shares ev l name i x a sh a' sh' : enc_value ev l name i x (a, sh) = OK (a', sh') ->
  sh' = share_all ev (row_strings name x) sh.
Proof.
  unfold enc_value, row_strings. destruct (mfind (i_props x) name) as [[]|];
    try (intros H; apply bind_OK in H; destruct H as (? & _ & H); cbn [share_all]; congruence).
  intros H. cbn [share_all]. match goal with |- context [share ev ?s sh] => destruct (share ev s sh) as [n sh2] eqn:E end. cbn [snd].
  apply bind_OK in H. destruct H as (b & _ & H). congruence.
Qed.
Lemma enc_values_shares ev l name ms : forall i a sh a' sh', enc_values ev l name i ms (a, sh) = OK (a', sh') ->
  sh' = share_all ev (col_strings name ms) sh.
Proof.
  induction ms as [|x ms IH]; intros i a sh a' sh' H; cbn [enc_values] in H; [cbn; congruence|].
  apply bind_OK in H. destruct H as ([a1 sh1] & E & H). apply enc_value_shares in E. apply IH in H.
  unfold col_strings in *. cbn [flat_map]. rewrite share_all_app. congruence.
Qed.
Definition chunk_strings (M : nat -> list inst) (c : chunk) : list bytes :=
  match ch_payload c with PProp id name _ => col_strings name (M (Z.to_nat id)) | _ => [] end.
Lemma enc_props_shares ev l k M ps : forall sh cs sh', enc_props ev l (Z.of_nat k) (M k) ps sh = OK (cs, sh') ->
  sh' = share_all ev (flat_map (chunk_strings M) cs) sh.
Proof.
  induction ps as [|[name [a|]] ps IH]; intros sh cs sh' H; cbn [enc_props] in H.
  - injection H as <- <-. reflexivity.
  - apply bind_OK in H. destruct H as ([a1 sh1] & E & H). apply enc_values_shares in E.
    apply bind_OK in H. destruct H as ([cs1 sh2] & E2 & H). apply IH in E2. injection H as <- <-.
    cbn [flat_map]. rewrite share_all_app. unfold chunk_strings at 2. cbn [ch_payload]. rewrite Nat2Z.id. congruence.
  - destruct (M k) eqn:Em; [|discriminate]. rewrite <- Em in *. eauto.
Qed.
Lemma enc_classes_shares ev place h l M gs : forall i sh ws is cs sh', (Z.of_nat (i + length gs) <= 2 ^ 31)%Z ->
  (forall j c g, nth_error gs j = Some (c, g) -> get_insts h l (g_ids g) = OK (M (i + j))) ->
  enc_classes ev place h l i gs sh = OK (ws, is, cs, sh') -> sh' = share_all ev (flat_map (chunk_strings M) cs) sh.
Proof.
  induction gs as [|[c g] gs IH]; intros i sh ws is cs sh' Hb HM H; cbn [enc_classes] in H.
  - injection H as <- <- <- <-. reflexivity.
  - cbn [length] in Hb. rewrite wrap_small in H by lia.
    pose proof (HM 0 c g eq_refl) as E0. rewrite Nat.add_0_r in E0. rewrite E0 in H. cbn [obind] in H.
    apply bind_OK in H. destruct H as ([ws1 ps] & E1 & H). apply bind_OK in H. destruct H as ([cs1 sh1] & E2 & H).
    apply enc_props_shares in E2. apply bind_OK in H. destruct H as ([[[ws2 is2] cs2] sh2] & E3 & H).
    injection H as <- <- <- <-. apply IH in E3; [|lia|].
    + rewrite flat_map_app, share_all_app. congruence.
    + intros j c' g' Hj. specialize (HM (S j) c' g' Hj). now rewrite Nat.add_succ_r in HM.
Qed.
Definition entry_strings (xs : list inst) (cl : list bytes) (e : entry) : list bytes :=
  col_strings (e_name e) (members xs (nth (e_id e) cl [])).

Section General.
  Variables (ev : env) (place : bool) (h : heap) (r : root) (ts : list rtree) (xs : list inst) (S : list bytes).
  Let nodes := fnodes ts.
  Hypothesis Hev : orders_ok ev.
  Hypothesis Hforest : forest_at h ts.
  Hypothesis Hroot : r_instances r = map rroot ts.
  Hypothesis Hcount : (Z.of_nat (length nodes) < 2 ^ 31)%Z.
  Hypothesis Hcol : forall s s', In s S -> In s' S -> ev_hash ev s = ev_hash ev s' -> s = s'.
  Hypothesis Hstrings : (N.of_nat (length S) < 2 ^ 32)%N.
  Hypothesis Hholds : holds h nodes xs.
  Hypothesis Hok : Forall (inst_ok S) xs.
  Hypothesis Hopts : forall c name, opts_agree (prop_values (map snd (mem xs c)) name).

  Record pieces_in (m : list (bytes * bytes)) (sh : shareds) (cl : list bytes) (entries : list entry) (ws : list cwarn) : Prop := {
    pi_meta : Permutation (r_metadata r) m;
    pi_shared : shared_ok ev S sh;
    pi_classes : classes_of xs cl;
    pi_sorted : StronglySorted entry_lt entries;
    pi_entry : forall j name a, In (j, name, a) entries -> exists c ct, nth_error cl j = Some c /\
       kept_col place (members xs c) name ct /\ col_result ev nodes name sh (members xs c) ct a;
    pi_kept : forall j c name ct, nth_error cl j = Some c -> kept_col place (members xs c) name ct -> exists a, In (j, name, a) entries;
    pi_warns : forall w, In w ws <-> exists j c name t u, nth_error cl j = Some c /\
       w = CW j sigINST (CMismatch (Some u) (Some t) c name) /\ warned place (members xs c) name t u;
    pi_order : sh = share_all ev (flat_map (entry_strings xs cl) entries) [] }.
  Lemma encode_general : exists m sh cl entries ws, pieces_in m sh cl entries ws /\
    codec_encode ev place h (Some r) =
      OK (FModel 0 (N.of_nat (length cl)) (N.of_nat (length nodes)) (shape_chunks place ts xs m sh cl entries) [] [], ws).
  Proof.
    unfold codec_encode. rewrite Hroot, (numbering h ts Hforest). cbn [obind]. fold nodes.
    pose proof (holds_length _ _ _ Hholds) as Hlen.
    destruct (groups_spec place h nodes xs (ev_classes ev) Hholds) as (gs & cl & Eg & Hcl & Es); [lia|apply Hev|].
    rewrite Eg. cbn [obind]. rewrite Es. clear Eg Es gs.
    pose proof (classes_le xs cl Hcl) as Hcle.
    destruct (enc_classes_spec ev S Hcol Hstrings (proj1 (proj2 Hev)) nodes place h xs Hholds Hok
      Hopts cl 0 []) as (ws & entries & sh & Eenc & Hshok & Hs & He & Hk & Hw); [split; [easy|constructor]|lia|].
    assert (Hsh : sh = share_all ev (flat_map (entry_strings xs cl) entries) []).
    { pose proof Eenc as E. apply (enc_classes_shares ev place h nodes (fun j => members xs (nth j cl []))) in E.
      - cbn [app] in E. rewrite E. f_equal. clear. induction entries as [|[[j name] a] es IH]; [reflexivity|]. cbn [map flat_map].
        rewrite IH. f_equal. unfold chunk_strings, echunk, entry_strings. cbn [ch_payload e_id e_name fst snd]. now rewrite Nat2Z.id.
      - rewrite map_length. lia.
      - intros j c g Hj. rewrite nth_error_map in Hj. destruct (nth_error cl j) as [c0|] eqn:Ec; [|discriminate]. injection Hj as <- <-.
        cbn [grp g_ids Nat.add]. rewrite (mem_get_insts h nodes xs c0 Hholds). unfold members. erewrite nth_error_nth; [reflexivity|exact Ec]. }
    rewrite Eenc. clear Eenc.
    cbn [obind app]. rewrite map_length.
    assert (Hlinks : (match nodes with [] => OK [] | _ => fold_res (rec_inst (Datatypes.S (Datatypes.S (length h))) h nodes 0) (map rroot ts) [] end)
                     = @OK err _ (map (nlink nodes) (flinks 0 ts))).
    { pose proof (links_spec h ts Hforest) as L. fold nodes in L. rewrite L. destruct nodes as [|p n] eqn:En; [|reflexivity].
      pose proof (Permutation_length (flinks_perm ts 0)) as P. fold nodes in P. rewrite En, map_length in P. cbn in P.
      destruct (flinks 0 ts); [reflexivity|discriminate]. }
    rewrite Hlinks. cbn [obind].
    assert (Hpad : length nodes - length (map (nlink nodes) (flinks 0 ts)) = 0).
    { rewrite map_length, <- (map_length fst (flinks 0 ts)), (Permutation_length (flinks_perm ts 0)). fold nodes. lia. }
    rewrite Hpad. cbn [repeat]. rewrite app_nil_r.
    exists (match r_metadata r with [] => [] | md => meta_sort ev (ev_meta ev md) end), sh, cl, entries, ws. split.
    - constructor; auto.
      + destruct (r_metadata r); [constructor|now apply meta_sort_perm].
      + intros j name a Hin. destruct (He j name a Hin) as (c & ct & Hj & Hr). apply enum_In in Hj. rewrite Nat.sub_0_r in Hj. exists c, ct. tauto.
      + intros j c name ct Hj. apply Hk. apply enum_In. rewrite Nat.sub_0_r. split; [lia|exact Hj].
      + intros w. rewrite Hw. split; intros (j & c & name & t & u & H1 & H2); exists j, c, name, t, u; (split; [|exact H2]).
        * apply enum_In in H1. rewrite Nat.sub_0_r in H1. tauto.
        * apply enum_In. rewrite Nat.sub_0_r. split; [lia|exact H1].
    - rewrite !N.mod_small by lia. f_equal. f_equal. f_equal. unfold shape_chunks. f_equal.
      + unfold meta_chunks. destruct (r_metadata r) as [|kv md] eqn:Em; [reflexivity|].
        destruct (meta_sort ev (ev_meta ev (kv :: md))) eqn:Em2; [|reflexivity].
        pose proof (meta_sort_perm ev (kv :: md) Hev) as P. rewrite Em2 in P. symmetry in P. now apply Permutation_nil_cons in P.
      + unfold prnt_payload. rewrite !map_map. reflexivity.
  Qed.
End General.

(** ** What is stored is written the same way *)
Lemma to_bytes_stored v : to_bytes (stored v) = to_bytes v.
Proof.
  destruct v; try reflexivity; cbn [stored].
  all: match goal with |- context [if ?b then _ else _] => destruct b eqn:Eb; [|try reflexivity] end; try reflexivity.
  all: cbn [to_bytes]; rewrite ?Eb; try reflexivity.
Qed.
Lemma flat_stored vs : flat_map to_bytes (map stored vs) = flat_map to_bytes vs.
Proof. induction vs as [|v vs IH]; cbn; [reflexivity|]. now rewrite to_bytes_stored, IH. Qed.
Lemma head_stored v : cframe_head (stored v) = cframe_head v /\ cframe_pos (stored v) = cframe_pos v.
Proof.
  destruct v; try (split; reflexivity); cbn [stored].
  all: match goal with |- context [if ?b then _ else _] => destruct b eqn:Eb end; cbn [cframe_head cframe_pos]; rewrite ?Eb; split; reflexivity.
Qed.
Lemma cframes_stored vs : cframes_bytes (map stored vs) = cframes_bytes vs.
Proof.
  unfold cframes_bytes.
  assert (E1 : flat_map cframe_head (map stored vs) = flat_map cframe_head vs).
  { induction vs as [|v vs IH]; cbn; [reflexivity|]. now rewrite (proj1 (head_stored v)), IH. }
  assert (E2 : flat_map (fun v => b_vec3 (cframe_pos v)) (map stored vs) = flat_map (fun v => b_vec3 (cframe_pos v)) vs).
  { clear E1. induction vs as [|v vs IH]; cbn; [reflexivity|]. now rewrite (proj2 (head_stored v)), IH. }
  now rewrite E1, E2.
Qed.
Lemma ref_stored v : ref_val (stored v) = ref_val v.
Proof. destruct v; try reflexivity; cbn [stored]; match goal with |- context [if ?b then _ else _] => destruct b end; reflexivity. Qed.
Lemma arr1_stored t vs : arr_to_bytes1 t (map stored vs) = arr_to_bytes1 t vs.
Proof.
  unfold arr_to_bytes1. replace (arr_raw t (map stored vs)) with (arr_raw t vs); [reflexivity|].
  unfold arr_raw. rewrite flat_stored, cframes_stored, map_map.
  rewrite (map_ext (fun x => ref_val (stored x)) ref_val ref_stored). reflexivity.
Qed.
Fixpoint array_stored a : typeArrayToBytes (stored_array a) = typeArrayToBytes a.
Proof.
  destruct a as [t vs|[v|] ps]; cbn [stored_array typeArrayToBytes]; [now rewrite arr1_stored|now rewrite array_stored|reflexivity].
Qed.
Lemma payload_stored p : payload_bytes (stored_payload p) = payload_bytes p.
Proof.
  destruct p as [| |id name ids svc gs|id name [a|]| | | |]; try reflexivity; cbn [stored_payload payload_bytes].
  - destruct svc; reflexivity.
  - now rewrite array_stored.
Qed.

(** ** Values *)
Lemma special_back s : In s (map snd cframeSpecialNumber) -> special_number (special_matrix s) = Some s /\ s <> x00.
Proof.
  intros H. cbn [map snd cframeSpecialNumber In] in H.
  repeat (destruct H as [<-|H]; [split; [vm_compute; reflexivity|discriminate]|]). destruct H.
Qed.
Lemma special_in rot s : special_number rot = Some s -> In s (map snd cframeSpecialNumber).
Proof.
  unfold special_number. destruct (find _ _) as [[m n]|] eqn:E; [|discriminate]. cbn. intros [= <-].
  apply find_some in E. destruct E as [E _]. exact (in_map snd _ _ E).
Qed.
(** What was stored, decoded, is encoded as it was stored. *)
Lemma again_plain q2m v b v' : encodeValue v = Some b -> decodeValue q2m (stored b) = Some v' -> encodeValue v' = Some (stored b).
Proof.
  destruct v; cbn [encodeValue]; intros E; try discriminate.
  all: try (injection E as <-; intros H; injection H as <-; reflexivity).
  - destruct (special_number rot) as [s|] eqn:Es; injection E as <-.
    + destruct (special_back s (special_in _ _ Es)) as [Hb Hn]. cbn [stored].
      assert (En : Byte.eqb s x00 = false) by (destruct (Byte.eqb s x00) eqn:E; [apply Byte.byte_dec_bl in E; contradiction|reflexivity]).
      rewrite En. cbn [decodeValue]. rewrite En. intros H. injection H as <-. cbn [encodeValue]. now rewrite Hb.
    + intros H. cbn in H. injection H as <-. cbn [encodeValue stored]. rewrite Es. reflexivity.
  - injection E as <-. destruct custom; intros H; cbn in H; injection H as <-; reflexivity.
Qed.
Lemma again_default q2m t d v' : newValue t = Some d -> t <> tCFrameQuat -> decodeValue q2m (stored d) = Some v' ->
  encodeValue v' = Some (stored d).
Proof.
  intros H Ht. destruct t; try discriminate; try congruence; injection H as <-; intros E; try discriminate E; injection E as <-; vm_compute; reflexivity.
Qed.
Lemma stored_default t d : newValue t = Some d -> t <> tCFrame -> t <> tCFrameQuat -> stored d = d.
Proof. intros H. destruct t; try discriminate; injection H as <-; intros; try congruence; reflexivity. Qed.
