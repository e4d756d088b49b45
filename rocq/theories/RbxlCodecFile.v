(** RbxlCodecFile.v - the chunks Encode of the codec produces can be written. *)
From Coq Require Import Permutation Sorting.Sorted.
From Verif Require Import Base RbxlValues RbxlArrays RbxlModel RbxlFile RbxlFileProofs RbxValues Tree RbxlCodec RbxlApi
  SpecValues SpecArrays SpecWire SpecModel SpecFile SpecTree SpecCodec TreeProofs SortProofs PropFile PropCodecValues RbxlCodecEnc RbxlCodecCols
  RbxlCodecOut RbxlCodecShape RbxlCodecDec RbxlCodecRound RbxlCodecImage.

Definition no_end (c : chunk) : Prop := forall content, ch_payload c <> PEnd content.
Definition ext_all (g : Z -> option nat) (cs : list chunk) : Z -> option nat := fold_left (fun g c => extend g (ch_payload c)) cs g.
Lemma wf_app_any a : Forall (fun c => no_end c /\ forall g, wf_payload g (ch_payload c)) a -> forall g b,
  wf_chunks (ext_all g a) b -> wf_chunks g (a ++ b).
Proof. induction 1 as [|c a [Hn Hc] _ IH]; intros g b H; cbn [app]; [exact H|]. constructor; auto. Qed.
Lemma wf_app_same a g b : Forall (fun c => no_end c /\ (forall g, extend g (ch_payload c) = g) /\ wf_payload g (ch_payload c)) a ->
  wf_chunks g b -> wf_chunks g (a ++ b).
Proof. induction 1 as [|c a (Hn & He & Hc) _ IH]; intros H; cbn [app]; [exact H|]. constructor; auto. rewrite He. auto. Qed.
Lemma newValue_wf t d : newValue t = Some d -> wf_value d.
Proof.
  destruct t; intros H; try discriminate; injection H as <-; cbn; repeat split; try exact I; try reflexivity; try lia; try (unfold int_range; lia);
    try (repeat constructor; fail).
Qed.
Lemma block_tid t u : fromValueType t = Some u -> is_interleaved_type u -> In t block_types.
Proof.
  intros H Hi. unfold fromValueType, assocN in H.
  repeat match type of H with
  | (if (?k =? t)%N then _ else _) = _ =>
      destruct (N.eqb_spec k t) as [<-|];
      [injection H as <-; first [unfold block_types; cbn [In]; tauto | exfalso; unfold is_interleaved_type in Hi; cbn [In] in Hi;
        repeat (destruct Hi as [Hi|Hi]; [discriminate|]); exact Hi] |]
  end. discriminate.
Qed.

Section File.
  Variables (ev : env) (place : bool) (h : heap) (r : root) (ts : list rtree) (xs : list inst).
  Let nodes := fnodes ts.
  Hypothesis Hforest : forest_at h ts.
  Hypothesis Hst : storable h nodes.
  Hypothesis Hff : fits_file h nodes r.
  Hypothesis Hholds : holds h nodes xs.
  Variables (m : list (bytes * bytes)) (sh : shareds) (cl : list bytes) (entries : list entry) (ws : list cwarn).
  Hypothesis Hp : pieces ev place h r ts xs m sh cl entries ws.
  Let Hcl : classes_of xs cl := pc_classes _ _ _ _ _ _ _ _ _ _ _ Hp.
  Let Hlen : length xs = length nodes := holds_length _ _ _ Hholds.

  Lemma ids32 k : k < length nodes -> int_range 32 (Z.of_nat k).
  Proof. intros H. pose proof (st_count _ _ Hst). unfold nodes in *. unfold int_range. lia. Qed.
  Lemma num_range p : int_range 32 (num nodes p).
  Proof.
    unfold num, refs_or_nil, refs_get. destruct (p =? 0)%nat; [unfold nilInstance, int_range; lia|].
    destruct (position nodes p) as [k|] eqn:E; cbn; [|unfold nilInstance, int_range; lia].
    apply position_nth in E. assert (k < length nodes) by (apply nth_error_Some; congruence).
    rewrite wrap_small; [now apply ids32|]. pose proof (st_count _ _ Hst). unfold nodes in *. lia.
  Qed.
  Lemma shared_len : forall k s, In (k, s) sh -> len32 s.
  Proof.
    intros k s Hin. destruct (proj1 (pc_shared _ _ _ _ _ _ _ _ _ _ _ Hp) k s Hin) as [_ Hs]. unfold shared_strings in Hs.
    apply in_flat_map in Hs. destruct Hs as (p & Hpn & Hs). destruct (hget h p) as [i|] eqn:Eg; [|easy].
    apply in_flat_map in Hs. destruct Hs as ([name v] & Hnv & Hs). cbn [snd] in Hs. destruct v; try easy. destruct Hs as [->|[]].
    assert (Hi : inst_in h nodes i) by (exists p; auto). destruct (st_class _ _ Hst i Hi) as [_ Hnd].
    apply (In_mfind _ _ _ Hnd) in Hnv. now destruct (st_props _ _ Hst i name _ Hi Hnv).
  Qed.
  Lemma shared_count : len32 sh.
  Proof.
    pose proof (shared_small ev (shared_strings h nodes) sh (pc_shared _ _ _ _ _ _ _ _ _ _ _ Hp)) as H. pose proof (st_strings _ _ Hst) as H'.
    unfold len32, nodes in *. lia.
  Qed.
  Lemma mem_le c : length (mem xs c) <= length xs.
  Proof.
    rewrite <- (map_length fst (mem xs c)), <- (seq_length (length xs) 0). apply NoDup_incl_length; [apply mem_NoDup|].
    intros k Hk. apply in_map_iff in Hk. destruct Hk as ([k' x] & <- & Hin). apply mem_In in Hin. apply in_seq. cbn [fst].
    assert (k' < length xs) by (apply nth_error_Some; destruct Hin; congruence). lia.
  Qed.
  Lemma mids_ok c : ids_ok (mids (mem xs c)).
  Proof.
    split.
    - unfold mids. rewrite Forall_map. apply Forall_forall. intros [k x] Hin. apply mem_In in Hin. apply ids32. rewrite <- Hlen.
      apply nth_error_Some. destruct Hin. cbn. congruence.
    - unfold mids. rewrite map_length. pose proof (mem_le c). pose proof (ff_count _ _ _ Hff) as Hb. unfold nodes in *. lia.
  Qed.
  Lemma cl_range j c : nth_error cl j = Some c -> int_range 32 (Z.of_nat j) /\ len32 c /\ mem xs c <> [].
  Proof.
    intros Hj. assert (Hc : In c cl) by (eapply nth_error_In; eauto). apply (proj2 Hcl) in Hc. split; [|split].
    - apply ids32. pose proof (classes_le xs cl Hcl). assert (j < length cl) by (apply nth_error_Some; congruence). lia.
    - destruct Hc as (x & Hx & <-). apply (holds_inst _ _ _ _ Hholds) in Hx. now destruct (st_class _ _ Hst x Hx).
    - now apply mem_nonempty.
  Qed.
  Definition gr : Z -> option nat := ext_all no_groups (map (ichunk place xs) (enum 0 cl)).
  Lemma ext_other k : forall cs n g, (k < n \/ n + length cs <= k) -> ext_all g (map (ichunk place xs) (enum n cs)) (Z.of_nat k) = g (Z.of_nat k).
  Proof.
    induction cs as [|c cs IH]; intros n g H; [reflexivity|]. rewrite enum_cons. unfold ext_all in *. cbn [map fold_left length] in *. rewrite IH by lia.
    cbn [ichunk ch_payload extend fst snd]. destruct (Z.eqb_spec (Z.of_nat n) (Z.of_nat k)); [lia|reflexivity].
  Qed.
  Lemma ext_insts : forall cs n g j c, In (j, c) (enum n cs) -> ext_all g (map (ichunk place xs) (enum n cs)) (Z.of_nat j) = Some (length (mem xs c)).
  Proof.
    induction cs as [|c0 cs IH]; intros n g j c H; [easy|]. rewrite enum_cons in *. destruct H as [[= <- <-]|H].
    - unfold ext_all. cbn [map fold_left]. fold (ext_all (extend g (ch_payload (ichunk place xs (n, c0)))) (map (ichunk place xs) (enum (S n) cs))).
      rewrite ext_other by lia. cbn. rewrite Z.eqb_refl. unfold mids. now rewrite map_length.
    - unfold ext_all. cbn [map fold_left]. fold (ext_all (extend g (ch_payload (ichunk place xs (n, c0)))) (map (ichunk place xs) (enum (S n) cs))). now apply IH.
  Qed.
  Lemma entry_wf j name a : In (j, name, a) entries -> wf_payload gr (PProp (Z.of_nat j) name (Some a)).
  Proof.
    intros Hin. destruct (pc_entry _ _ _ _ _ _ _ _ _ _ _ Hp _ _ _ Hin) as (c & ct & Hj & (Hne & Hall & Hpl) & Hr).
    destruct (cl_range j c Hj) as (H1 & H2 & H3). cbn [wf_payload]. split; [exact H1|].
    assert (Hml : length (members xs c) = length (mem xs c)) by (unfold members; apply map_length).
    assert (Hmi : forall x, In x (members xs c) -> inst_in h nodes x) by (intros x Hx; apply members_In in Hx; apply (holds_inst _ _ _ _ Hholds); tauto).
    assert (Hpv : forall x v, In x (members xs c) -> mfind (i_props x) name = Some v -> is_col ct v).
    { intros x v Hx Hf. rewrite Forall_forall in Hall. apply Hall. apply prop_values_In. eauto. }
    destruct (prop_values (members xs c) name) as [|w pv] eqn:Epv; [contradiction|].
    assert (Hw : In w (prop_values (members xs c) name)) by (rewrite Epv; now left). apply prop_values_In in Hw. destruct Hw as (y & Hy & Hyf).
    split; [now destruct (st_props _ _ Hst y name w (Hmi y Hy) Hyf)|].
    assert (Hg : gr (Z.of_nat j) = Some (length (mem xs c))) by (apply ext_insts; apply enum_In; rewrite Nat.sub_0_r; split; [lia|exact Hj]).
    assert (Hpos : length (mem xs c) <> 0) by (destruct (mem xs c); [contradiction|discriminate]).
    destruct ct as [t|u]; cbn [col_result] in Hr.
    - destruct Hr as (bs & -> & Hf2). pose proof (Forall2_len _ _ _ Hf2) as Hbl. split; [|cbn [arr_len]; rewrite Hg; f_equal; lia].
      assert (Ht : t <> tOptional) by (destruct (Hpv y w Hy Hyf); assumption).
      split; [|split; [cbn; lia|exact I]]. constructor; [exact Ht|]. apply Forall_forall. intros b Hb. apply In_nth_error in Hb. destruct Hb as [k Hk].
      assert (Hx : exists x, nth_error (members xs c) k = Some x /\ elem ev nodes t name sh x b).
      { clear -Hf2 Hk. revert k Hk. induction Hf2 as [|x b' l l' He _ IH]; intros [|k] Hk; try discriminate; cbn in *; [injection Hk as ->; eauto|auto]. }
      destruct Hx as (x & Hxk & He). assert (Hx : In x (members xs c)) by (eapply nth_error_In; eauto). split.
      + eapply elem_type; [|exact Ht|exact He]. intros v Hv. exact (Hpv x v Hx Hv).
      + unfold elem in He. destruct (mfind (i_props x) name) as [v|] eqn:Ev; [|now apply newValue_wf in He].
        destruct (st_props _ _ Hst x name v (Hmi x Hx) Ev) as [_ Hwf].
        destruct v; try (now apply (C24_well_formed _ _ Hwf) in He).
        * subst b. apply num_range.
        * destruct He as (k' & -> & Hk'). cbn. assert (k' < length sh) by (apply nth_error_Some; congruence). pose proof shared_count as Hs.
          unfold len32 in Hs. unfold f32. lia.
    - destruct Hr as (es & -> & Hf2). pose proof (Forall2_len _ _ _ Hf2) as Hbl.
      split; [|cbn [arr_len]; rewrite map_length, Hg; f_equal; lia].
      destruct (Hpv y w Hy Hyf) as (ty0 & o0 & -> & Hu0 & Huo).
      split; [|split; [cbn; rewrite map_length; lia|]].
      + constructor; [|cbn; now rewrite !map_length]. constructor; [exact Huo|]. rewrite Forall_map. apply Forall_forall. intros e Hb.
        apply In_nth_error in Hb. destruct Hb as [k Hk].
        assert (Hx : exists x, nth_error (members xs c) k = Some x /\ elemo u name x e).
        { clear -Hf2 Hk. revert k Hk. induction Hf2 as [|x b' l l' He _ IH]; intros [|k] Hk; try discriminate; cbn in *; [injection Hk as ->; eauto|auto]. }
        destruct Hx as (x & Hxk & He). assert (Hx : In x (members xs c)) by (eapply nth_error_In; eauto). unfold elemo in He.
        assert (Hdef : (exists d, newValue u = Some d /\ e = (d, false)) -> vtype (fst e) = u /\ wf_value (fst e)).
        { intros (d & Hd & ->). cbn [fst]. split; [|eapply newValue_wf; eauto]. destruct (newValue_some u Huo) as (d' & Hd' & <-). congruence. }
        destruct (mfind (i_props x) name) as [v|] eqn:Ev; [|now apply Hdef].
        destruct (Hpv x v Hx Ev) as (ty & o & -> & Hu & _). destruct o as [v|]; [|now apply Hdef].
        destruct (encodeValue v) as [b|] eqn:Eb; [|now apply Hdef]. subst e. cbn [fst].
        destruct (st_props _ _ Hst x name _ (Hmi x Hx) Ev) as [_ [-> Hwf]]. split; [|now apply (C24_well_formed _ _ Hwf)].
        apply C24_type in Eb. congruence.
      + cbn [elem_type]. intros Hi. apply (ff_optional _ _ _ Hff y name ty0 o0 (Hmi y Hy) Hyf). eapply block_tid; eauto.
  Qed.
  Lemma shape_wf : wf_chunks no_groups (shape_chunks place ts xs m sh cl entries).
  Proof.
    unfold shape_chunks. pose proof (pc_meta _ _ _ _ _ _ _ _ _ _ _ Hp) as Hpm. destruct (ff_meta _ _ _ Hff) as [Hm1 Hm2].
    apply wf_app_any.
    { unfold meta_chunks. destruct m as [|kv m']; [constructor|]. constructor; [|constructor]. split; [discriminate|]. intros g. split.
      - unfold len32 in *. now rewrite <- (Permutation_length Hpm).
      - eapply Permutation_Forall; [exact Hpm|exact Hm2]. }
    replace (ext_all no_groups (meta_chunks m)) with no_groups by (unfold meta_chunks; destruct m; reflexivity).
    apply wf_app_any.
    { unfold sstr_chunks. pose proof shared_count as Hc. pose proof shared_len as Hl. destruct sh as [|e sh']; [constructor|]. constructor; [|constructor].
      split; [discriminate|]. intros g. split; [reflexivity|]. split; [unfold len32 in *; now rewrite map_length|].
      rewrite Forall_map. apply Forall_forall. intros [k s] Hin. split; [reflexivity|]. exact (Hl k s Hin). }
    replace (ext_all no_groups (sstr_chunks sh)) with no_groups by (unfold sstr_chunks; destruct sh; reflexivity).
    apply wf_app_any.
    { rewrite Forall_map. apply Forall_forall. intros [j c] Hin. apply enum_In in Hin. rewrite Nat.sub_0_r in Hin. destruct Hin as [_ Hj].
      split; [discriminate|]. intros g. destruct (cl_range j c Hj) as (H1 & H2 & _). cbn. split; [exact H1|]. split; [exact H2|].
      split; [apply mids_ok|]. intros _. unfold mids. now rewrite !map_length. }
    fold gr. apply wf_app_same.
    { rewrite Forall_map. apply Forall_forall. intros [[j name] a] Hin. split; [discriminate|]. split; [reflexivity|]. now apply entry_wf. }
    constructor; [discriminate| |constructor].
    assert (Hll : length (flinks 0 ts) = length nodes) by (rewrite <- (map_length fst (flinks 0 ts)); apply (Permutation_length (flinks_perm ts 0))).
    pose proof (ff_count _ _ _ Hff) as Hb. cbn. split; [reflexivity|].
    assert (Hi : forall g, ids_ok (map (num nodes) (map g (flinks 0 ts)))).
    { intros g. split; [apply Forall_forall; intros z Hz; apply in_map_iff in Hz; destruct Hz as (p & <- & _); apply num_range|].
      rewrite !map_length, Hll. exact Hb. }
    split; [apply Hi|]. split; [apply Hi|]. now rewrite !map_length.
  Qed.
  Lemma shape_no_warn lz u : forall wb, enc_chunks lz u false 0 (length (shape_chunks place ts xs m sh cl entries)) (shape_chunks place ts xs m sh cl entries) = OK wb ->
    fst wb = [].
  Proof.
    assert (Hshape : exists pre, shape_chunks place ts xs m sh cl entries = pre ++ [Chunk false (PEnd endContent)] /\
      Forall (fun c => no_end c /\ validChunk (psig (ch_payload c)) = true) pre).
    { exists (meta_chunks m ++ sstr_chunks sh ++ map (ichunk place xs) (enum 0 cl) ++ map echunk entries ++ [Chunk true (prnt_payload ts)]).
      split; [unfold shape_chunks; now rewrite <- !app_assoc|]. rewrite !Forall_app. repeat split.
      - unfold meta_chunks. destruct m; repeat constructor; discriminate.
      - unfold sstr_chunks. destruct sh; repeat constructor; discriminate.
      - rewrite Forall_map. apply Forall_forall. intros [j c] _. split; [discriminate|reflexivity].
      - rewrite Forall_map. apply Forall_forall. intros e _. split; [discriminate|reflexivity].
      - repeat constructor; discriminate. }
    destruct Hshape as (pre & -> & Hpre).
    assert (G : forall i n wb, n = i + length pre + 1 -> enc_chunks lz u false i n (pre ++ [Chunk false (PEnd endContent)]) = OK wb -> fst wb = []).
    { clear -Hpre. induction Hpre as [|c pre [Hc Hv] _ IH]; intros i n wb Hn H; cbn [app enc_chunks] in H.
      - apply bind_OK in H. destruct H as (b & _ & H). cbn [obind] in H.
        assert (E : enc_warns u false i n (Chunk false (PEnd endContent)) = []).
        { unfold enc_warns. cbn [ch_payload ch_compressed psig]. rewrite Bool.andb_false_r. cbn [length] in Hn.
          replace (S i =? n)%nat with true by (symmetry; apply Nat.eqb_eq; lia). reflexivity. }
        rewrite E in H. destruct wb as [w b']. apply OK_pair in H. now destruct H as [<- _].
      - apply bind_OK in H. destruct H as (b & _ & H). apply bind_OK in H. destruct H as ([w b'] & E & H).
        assert (Ew : enc_warns u false i n c = []).
        { unfold enc_warns. rewrite Hv. cbn [negb andb app]. unfold no_end in Hc. destruct (ch_payload c); try reflexivity. exfalso. eapply Hc. reflexivity. }
        rewrite Ew in H. destruct wb as [w1 b1]. apply OK_pair in H. destruct H as [<- _]. cbn [fst app].
        change w with (fst (w, b')). eapply IH; [|exact E]. cbn [length] in Hn. lia. }
    intros wb. apply G. rewrite app_length. cbn. lia.
  Qed.
End File.
