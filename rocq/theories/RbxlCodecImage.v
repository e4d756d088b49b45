(** RbxlCodecImage.v - decoding what Encode of the codec produces. *)
From Coq Require Import Permutation Sorting.Sorted.
From Verif Require Import Base RbxlValues RbxlArrays RbxlModel RbxlFile RbxlFileProofs RbxValues Tree RbxlCodec
  SpecValues SpecArrays SpecModel SpecFile SpecTree SpecCodec TreeProofs SortProofs PropCodecValues RbxlCodecEnc RbxlCodecCols
  RbxlCodecOut RbxlCodecShape RbxlCodecDec RbxlCodecRound.

Lemma from_stored t u : fromValueType t = Some u -> u <> tCFrameQuat.
Proof. intros H ->. exact (from_not_quat t H). Qed.
Lemma plain_not_ref v : plain v <-> encodeValue v <> None.
Proof.
  split.
  - intros H E. apply C24_not_convertible in E. contradiction.
  - destruct v; cbn; intros H; try exact I; contradiction.
Qed.
Lemma decode_plain q2m v b : encodeValue v = Some b -> exists v', decodeValue q2m (stored b) = Some v' /\ keeps_stored v v'.
Proof.
  intros E. assert (Hp : plain v) by (apply plain_not_ref; congruence).
  destruct (C24_value_roundtrip_stored q2m v Hp) as (b' & v' & Eb & Ed & Hk). assert (b' = b) as -> by congruence. eauto.
Qed.
Lemma keeps_type v v' : keeps_stored v v' -> rtype v' = stored_type (rtype v).
Proof.
  unfold keeps_stored. assert (Et : rtype (without_fields v) = rtype v) by (destruct v as [| | | | | | | | | | | | | | | | | | | | | | | | | |[]| | | | | |]; reflexivity).
  rewrite <- Et. generalize (without_fields v) as w. intros w H. destruct H as [| | | | |w Hp Hs]; try reflexivity.
  destruct w; try reflexivity; contradiction.
Qed.
(** The default of a binary type, decoded. *)
Lemma default_plain q2m t d : newValue t = Some d -> t <> tReference -> t <> tSharedString -> t <> tCFrame -> t <> tCFrameQuat ->
  exists v', decodeValue q2m (stored d) = Some v' /\ NewValue (tid_value_type t) = Some v'.
Proof. destruct t; intros H; try discriminate; injection H as <-; intros; try congruence; eexists; split; reflexivity. Qed.

Section Image.
  Variables (ev : env) (place : bool) (h : heap) (r : root) (ts : list rtree) (xs : list inst).
  Let nodes := fnodes ts.
  Hypothesis Hev : orders_ok ev.
  Hypothesis Hforest : forest_at h ts.
  Hypothesis Hroot : r_instances r = map rroot ts.
  Hypothesis Hst : storable h nodes.
  Hypothesis Hholds : holds h nodes xs.
  Variables (m : list (bytes * bytes)) (sh : shareds) (cl : list bytes) (entries : list entry) (ws : list cwarn).
  Hypothesis Hp : pieces ev place h r ts xs m sh cl entries ws.
  Variables (q2m : quat) (f : fmodel).
  Let chunks := shape_chunks place ts xs m sh cl entries.
  Hypothesis Hcc : fm_classCount f = N.of_nat (length cl).
  Hypothesis Hic : fm_instCount f = N.of_nat (length nodes).
  Hypothesis Hchunks : map ch_payload (fm_chunks f) = map ch_payload (map stored_chunk chunks).
  Hypothesis Hgroups : fm_groups f = grow_all [] 0 chunks.

  Let Hcl : classes_of xs cl := pc_classes _ _ _ _ _ _ _ _ _ _ _ Hp.
  Let Hlen : length xs = length nodes := holds_length _ _ _ Hholds.
  Definition off : nat := length (meta_chunks m) + length (sstr_chunks sh).

  Lemma nodes_nz p : In p nodes -> p <> 0.
  Proof. intros H ->. destruct (forest_nodes h ts (proj1 Hforest) 0 H) as [i Hi]. discriminate. Qed.
  Lemma num_nth k p : nth_error nodes k = Some p -> num nodes p = Z.of_nat k.
  Proof.
    intros H. unfold num, refs_or_nil, refs_get. destruct (Nat.eqb_spec p 0) as [E|]; [exfalso; eapply nodes_nz; [eapply nth_error_In; eauto|exact E]|].
    rewrite (nth_position nodes (proj2 Hforest) k p H). cbn. apply wrap_small.
    assert (k < length nodes) by (apply nth_error_Some; congruence). pose proof (st_count _ _ Hst). unfold nodes in *. lia.
  Qed.
  Lemma num_out p : ~ In p nodes -> num nodes p = nilInstance.
  Proof.
    intros H. unfold num, refs_or_nil. destruct (Nat.eqb_spec p 0) as [->|Hz]; [reflexivity|]. now rewrite refs_get_None.
  Qed.
  Lemma small_bounds k n : k < n -> out_of_bounds (Z.of_nat k) (N.of_nat n) = false.
  Proof. intros H. unfold out_of_bounds. destruct (Z.ltb_spec (Z.of_nat k) 0); [lia|]. cbn. apply N.leb_gt. lia. Qed.
  Lemma groups_here j c : nth_error cl j = Some c -> group_get (fm_groups f) (Z.of_nat j) = Some (off + j, mids (mem xs c)).
  Proof.
    intros H. rewrite Hgroups. unfold chunks, shape_chunks. rewrite !grow_all_app. cbn [Nat.add].
    assert (S1 : Forall not_inst (meta_chunks m)) by (unfold meta_chunks; destruct m; repeat constructor).
    assert (S2 : Forall not_inst (sstr_chunks sh)) by (unfold sstr_chunks; destruct sh; repeat constructor).
    assert (S3 : Forall not_inst (map echunk entries)) by (apply Forall_forall; intros c' Hc'; apply in_map_iff in Hc'; destruct Hc' as (e & <- & _); exact I).
    rewrite (grow_all_skip _ S1), (grow_all_skip _ S2). rewrite (grow_all_skip [_; _]) by (repeat constructor).
    rewrite (grow_all_skip _ S3). erewrite grow_all_insts; [|apply enum_In; rewrite Nat.sub_0_r; split; [lia|exact H]].
    unfold off. now rewrite Nat.sub_0_r.
  Qed.

  (** ** Values *)
  Section Values.
  Variable lk : look.
  Hypothesis Hlk : lookup_ok lk (mids (order xs cl)).
  Definition phi (p : ptr) : ptr := lget lk (num nodes p).
  Definition shared : list (bytes * bytes) := map (fun e => (repeat x00 16, snd e)) sh.
  Definition fstr : bytes := match sh with e :: _ => snd e | [] => [] end.
  Lemma phi_nth k p x : nth_error nodes k = Some p -> nth_error xs k = Some x ->
    exists q, nth_error (order xs cl) q = Some (k, x) /\ phi p = S q.
  Proof.
    intros Hk Hx. destruct (order_pos xs cl Hcl k x Hx) as [q Hq]. exists q. split; [exact Hq|].
    unfold phi. rewrite (num_nth k p Hk). eapply lget_order; eauto.
  Qed.
  Lemma phi_out p : ~ In p nodes -> phi p = 0.
  Proof. intros H. unfold phi. rewrite (num_out p H). destruct Hlk as (L & _). unfold lget. now rewrite L. Qed.
  Lemma dec_value_plain t vs i : t <> tReference -> t <> tSharedString ->
    dec_value q2m lk shared (ARR t vs) i =
      match nth_error vs i with
      | Some v => match decodeValue q2m v with Some r => OK r | None => Panic end
      | None => Panic
      end.
  Proof. intros H1 H2. destruct t; try reflexivity; contradiction. Qed.
  Lemma stored_type_of v t : is_col (CPlain t) v -> tid_value_type t = stored_type (rtype v).
  Proof. intros [H _]. now apply stored_type_tid. Qed.
  Lemma col_plain t v : is_col (CPlain t) v -> plain v <-> t <> tReference /\ t <> tSharedString.
  Proof. intros [H Ho]. destruct v; cbn in H; injection H as <-; cbn; split; intros; try exact I; try (split; discriminate); try contradiction; destruct H; congruence. Qed.
  Lemma dval_has t name bs mm x b v : nth_error bs mm = Some b -> mfind (i_props x) name = Some v -> is_col (CPlain t) v ->
    elem ev nodes t name sh x b -> exists v', dec_value q2m lk shared (ARR t (map stored bs)) mm = OK v' /\ carried phi v v'.
  Proof.
    intros Hb Hf Hc He. unfold elem in He. rewrite Hf in He.
    assert (Hplain : plain v -> encodeValue v = Some b -> exists v', dec_value q2m lk shared (ARR t (map stored bs)) mm = OK v' /\ carried phi v v').
    { intros Hv E. destruct (proj1 (col_plain t v Hc) Hv) as [H1 H2]. rewrite dec_value_plain by assumption. rewrite nth_error_map, Hb. cbn [option_map].
      destruct (decode_plain q2m v b E) as (v' & -> & Hk). exists v'. split; [reflexivity|]. now apply carried_plain. }
    destruct v; try (apply Hplain; [exact I|exact He]).
    - assert (t = tReference) as -> by (destruct Hc as [Hc _]; cbn in Hc; congruence). subst b. cbn [dec_value].
      rewrite nth_error_map, Hb. cbn [option_map stored]. eexists. split; [reflexivity|]. apply carried_reference.
    - assert (t = tSharedString) as -> by (destruct Hc as [Hc _]; cbn in Hc; congruence). destruct He as (k & -> & Hk). cbn [dec_value].
      rewrite nth_error_map, Hb. cbn [option_map stored]. exists (RSharedString s). split; [|apply carried_shared].
      assert (Hkl : k < length sh) by (apply nth_error_Some; congruence). unfold shared. rewrite map_length.
      destruct (N.ltb_spec (N.of_nat k) (N.of_nat (length sh))); [|lia]. rewrite Nat2N.id.
      erewrite (nth_error_nth (map _ sh) _ _ (map_nth_error _ _ _ Hk)). reflexivity.
    - destruct Hc as [Hc Ho]. cbn in Hc. congruence.
  Qed.
  Lemma phi_first : nodes <> [] -> phi (hd 0 nodes) = lget lk 0.
  Proof.
    intros Hn. unfold phi. rewrite (num_nth 0); [reflexivity|]. destruct nodes; [contradiction|reflexivity].
  Qed.
  Lemma dval_fill t name bs mm x b w : nodes <> [] -> nth_error bs mm = Some b -> mfind (i_props x) name = None -> is_col (CPlain t) w ->
    elem ev nodes t name sh x b ->
    exists v', dec_value q2m lk shared (ARR t (map stored bs)) mm = OK v' /\ filled (phi (hd 0 nodes)) fstr w v'.
  Proof.
    intros Hn Hb Hf Hc He. unfold elem in He. rewrite Hf in He.
    assert (Hq : t <> tCFrameQuat) by (destruct Hc as [Hc _]; eapply from_stored; exact Hc).
    destruct (tid_eqb t tReference) eqn:E1.
    { apply tid_eqb_eq in E1. subst t. injection He as <-. cbn [dec_value]. rewrite nth_error_map, Hb. cbn [option_map stored].
      eexists. split; [reflexivity|]. destruct Hc as [Hc _]. apply vt_reference in Hc. destruct Hc as [p ->]. rewrite (phi_first Hn). apply filled_reference. }
    destruct (tid_eqb t tSharedString) eqn:E2.
    { apply tid_eqb_eq in E2. subst t. injection He as <-. cbn [dec_value]. rewrite nth_error_map, Hb. cbn [option_map stored].
      eexists. split; [reflexivity|]. destruct Hc as [Hc _]. apply vt_shared in Hc. destruct Hc as [s ->].
      replace (if (0 <? N.of_nat (length shared))%N then snd (nth (N.to_nat 0) shared ([], [])) else []) with fstr; [apply filled_shared|].
      unfold fstr, shared. destruct sh as [|e sh']; reflexivity. }
    apply tid_eqb_neq in E1, E2. rewrite dec_value_plain by assumption. rewrite nth_error_map, Hb. cbn [option_map].
    assert (Hw : plain w) by (apply (col_plain t w Hc); auto).
    destruct (tid_eqb t tCFrame) eqn:E3.
    { apply tid_eqb_eq in E3. subst t. injection He as <-. eexists. split; [reflexivity|]. destruct Hc as [Hc _].
      destruct w; try discriminate Hc. apply filled_cframe. }
    apply tid_eqb_neq in E3. destruct (default_plain q2m t b He E1 E2 E3 Hq) as (v' & -> & Hd). exists v'. split; [reflexivity|].
    rewrite (stored_type_of w t Hc) in Hd. apply filled_plain; [exact Hw| |exact Hd].
    intros Ht. destruct w; try discriminate Ht. destruct Hc as [Hc _]. cbn in Hc. congruence.
  Qed.
  Lemma dec_value_opt u vs ps i : dec_value q2m lk shared (AOPT (Some (ARR u vs)) ps) i =
      match nth_error ps i with
      | None => Panic
      | Some false => OK (mkNone (tid_value_type u))
      | Some true =>
          match nth_error vs i with
          | Some x => match decodeValue q2m x with Some r => OK (mkSome r) | None => Panic end
          | None => Panic
          end
      end.
  Proof. cbn. destruct (nth_error ps i) as [[]|]; try reflexivity. destruct (nth_error vs i); reflexivity. Qed.
  Lemma dval_opt u name es mm x e ty o : nth_error es mm = Some e -> mfind (i_props x) name = Some (ROptional ty o) ->
    fromValueType ty = Some u -> wf_rvalue (ROptional ty o) -> elemo u name x e ->
    exists v', dec_value q2m lk shared (AOPT (Some (ARR u (map stored (map fst es)))) (map snd es)) mm = OK v' /\ carried phi (ROptional ty o) v'.
  Proof.
    intros Hb Hf Hu Hw He. unfold elemo in He. rewrite Hf in He. rewrite dec_value_opt, !nth_error_map, Hb. cbn [option_map].
    destruct o as [v|].
    - destruct (encodeValue v) as [b|] eqn:E.
      + subst e. cbn [fst snd]. destruct (decode_plain q2m v b E) as (v' & -> & Hk). eexists. split; [reflexivity|].
        unfold mkSome. rewrite (keeps_type _ _ Hk). destruct Hw as [-> _]. apply carried_some; [|exact Hk]. apply plain_not_ref. congruence.
      + destruct He as (d & _ & ->). cbn [snd]. eexists. split; [reflexivity|]. unfold mkNone. rewrite (stored_type_tid _ _ Hu).
        apply carried_lost. now apply C24_not_convertible.
    - destruct He as (d & _ & ->). cbn [snd]. eexists. split; [reflexivity|]. unfold mkNone. rewrite (stored_type_tid _ _ Hu). apply carried_none.
  Qed.
  Lemma dval_opt_fill u name es mm x e w : nth_error es mm = Some e -> mfind (i_props x) name = None ->
    is_col (COpt u) w -> elemo u name x e ->
    exists v', dec_value q2m lk shared (AOPT (Some (ARR u (map stored (map fst es)))) (map snd es)) mm = OK v' /\ filled (phi (hd 0 nodes)) fstr w v'.
  Proof.
    intros Hb Hf (ty & o & -> & Hu & _) He. unfold elemo in He. rewrite Hf in He. destruct He as (d & _ & ->).
    rewrite dec_value_opt, !nth_error_map, Hb. cbn [option_map snd]. eexists. split; [reflexivity|]. unfold mkNone.
    rewrite (stored_type_tid _ _ Hu). apply filled_optional.
  Qed.

  (** ** Written properties *)
  Lemma members_inst c x : In x (members xs c) <-> inst_in h nodes x /\ i_class x = c.
  Proof. rewrite members_In. now rewrite (holds_inst _ _ _ _ Hholds). Qed.
  Lemma kept_written c name w : written_prop place h nodes c name w -> exists ct, kept_col place (members xs c) name ct /\ is_col ct w.
  Proof.
    intros ((x & Hx & Hc & Hf) & Ha & Hpl).
    assert (Hin : forall v, In v (prop_values (members xs c) name) -> exists y, inst_in h nodes y /\ i_class y = c /\ mfind (i_props y) name = Some v).
    { intros v Hv. apply prop_values_In in Hv. destruct Hv as (y & Hy & Hg). apply members_inst in Hy. exists y. tauto. }
    assert (Hw : In w (prop_values (members xs c) name)).
    { apply prop_values_In. exists x. split; [apply members_inst; auto|exact Hf]. }
    destruct (vt_some w) as [t Ht].
    assert (Hall : forall v, In v (prop_values (members xs c) name) -> vt v = Some t).
    { intros v Hv. destruct (Hin v Hv) as (y & Hy & Hcy & Hg). destruct (vt_some v) as [u Hu]. rewrite Hu. f_equal.
      apply (stored_type_eq _ _ _ _ Hu Ht). eapply (Ha y x); eauto. }
    assert (Hne : prop_values (members xs c) name <> []) by (intros E; rewrite E in Hw; destruct Hw).
    destruct (tid_eqb t tOptional) eqn:Eo.
    - apply tid_eqb_eq in Eo. subst t. pose proof Ht as Ht'. apply vt_optional in Ht'. destruct Ht' as (ty & o & ->).
      destruct (st_props _ _ Hst x name _ Hx Hf) as [_ Hwf]. destruct (wf_optional_from _ _ Hwf) as [u Hu].
      assert (Hno : u <> tOptional) by (intros ->; apply from_optional in Hu; exact (st_inner _ _ Hst x name ty o Hx Hf Hu)).
      exists (COpt u). assert (Hcol : forall v, In v (prop_values (members xs c) name) -> is_col (COpt u) v).
      { intros v Hv. pose proof (Hall v Hv) as Hvt. apply vt_optional in Hvt. destruct Hvt as (ty' & o' & ->).
        destruct (Hin _ Hv) as (y & Hy & Hcy & Hg). destruct (st_props _ _ Hst y name _ Hy Hg) as [_ Hwf'].
        destruct (wf_optional_from _ _ Hwf') as [u' Hu']. exists ty', o'. split; [reflexivity|]. split; [|exact Hno]. rewrite Hu'. f_equal.
        symmetry. apply (stored_type_eq _ _ _ _ Hu Hu'). eapply (st_agree _ _ Hst x y); eauto. congruence. }
      split; [|now apply Hcol]. split; [exact Hne|]. split; [now apply Forall_forall|]. right. discriminate.
    - apply tid_eqb_neq in Eo. exists (CPlain t). split; [|split; auto]. split; [exact Hne|].
      split; [apply Forall_forall; intros v Hv; split; auto|].
      destruct Hpl as [Hpl|Hpl]; [now left|]. right. intros [= ->]. apply Hpl. destruct w; try discriminate Ht. reflexivity.
  Qed.
  Lemma written_kept c name ct w : kept_col place (members xs c) name ct -> In w (prop_values (members xs c) name) ->
    written_prop place h nodes c name w.
  Proof.
    intros (_ & Hall & Hpl) Hw. rewrite Forall_forall in Hall. split; [|split].
    - apply prop_values_In in Hw. destruct Hw as (x & Hx & Hf). apply members_inst in Hx. exists x. tauto.
    - intros x y v u Hx Hy Hcx Hcy Hv Hu.
      assert (Iv : In v (prop_values (members xs c) name)) by (apply prop_values_In; exists x; split; [apply members_inst; auto|exact Hv]).
      assert (Iu : In u (prop_values (members xs c) name)) by (apply prop_values_In; exists y; split; [apply members_inst; auto|exact Hu]).
      apply Hall in Iv, Iu. apply is_col_vt in Iv, Iu. now apply (stored_type_eq _ _ _ _ Iv Iu).
    - destruct Hpl as [Hpl|Hpl]; [now left|]. right. intros Ht. apply Hpl. apply Hall in Hw. apply is_col_vt in Hw.
      unfold vt in Hw. rewrite Ht in Hw. cbn in Hw. destruct ct; congruence.
  Qed.

  Lemma Forall2_len {A B} (P : A -> B -> Prop) la lb : Forall2 P la lb -> length la = length lb.
  Proof. intros H. induction H; cbn; congruence. Qed.
  Lemma Forall2_nth {A B} (P : A -> B -> Prop) la lb k a : Forall2 P la lb -> nth_error la k = Some a -> exists b, nth_error lb k = Some b /\ P a b.
  Proof.
    intros H. revert k. induction H as [|x y la lb Hxy H IH]; intros [|k] E; try discriminate; cbn in *; [|auto].
    injection E as <-. eauto.
  Qed.
  Lemma entry_value j name a c mm k x : In (j, name, a) entries -> nth_error cl j = Some c -> nth_error (mem xs c) mm = Some (k, x) ->
    exists v', dval q2m lk shared a mm = OK v' /\
      (forall v, mfind (i_props x) name = Some v -> carried phi v v') /\
      (mfind (i_props x) name = None -> forall w, In w (prop_values (members xs c) name) -> filled (phi (hd 0 nodes)) fstr w v').
  Proof.
    intros Hin Hj Hm. destruct (pc_entry _ _ _ _ _ _ _ _ _ _ _ Hp _ _ _ Hin) as (c' & ct & Hj' & Hk & Hr).
    assert (c' = c) as -> by congruence. destruct Hk as (Hne & Hall & _). rewrite Forall_forall in Hall.
    assert (Hmm : nth_error (members xs c) mm = Some x) by (unfold members; now rewrite nth_error_map, Hm).
    assert (Hx : In x (members xs c)) by (eapply nth_error_In; eauto). pose proof (proj1 (members_inst c x) Hx) as [Hxi Hxc].
    assert (Hnn : nodes <> []) by (destruct Hxi as (p & Hpn & _); intros E; rewrite E in Hpn; destruct Hpn).
    assert (Hown : forall v, mfind (i_props x) name = Some v -> is_col ct v).
    { intros v Hv. apply Hall. apply prop_values_In. eauto. }
    destruct (prop_values (members xs c) name) as [|w0 pv] eqn:Epv; [contradiction|].
    destruct ct as [t|u]; cbn [col_result] in Hr.
    - destruct Hr as (bs & -> & Hf2). destruct (Forall2_nth _ _ _ _ _ Hf2 Hmm) as (b & Hb & He). unfold dval. cbn [stored_array].
      destruct (mfind (i_props x) name) as [v|] eqn:Ef.
      + destruct (dval_has t name bs mm x b v Hb Ef (Hown v eq_refl) He) as (v' & E & Hc). exists v'. split; [exact E|].
        split; [now intros v0 [= <-]|discriminate].
      + destruct (dval_fill t name bs mm x b w0 Hnn Hb Ef (Hall w0 (or_introl eq_refl)) He) as (v' & E & Hc). exists v'. split; [exact E|].
        split; [discriminate|]. intros _ w Hw.
        destruct (dval_fill t name bs mm x b w Hnn Hb Ef (Hall w Hw) He) as (v2 & E2 & Hc2). congruence.
    - destruct Hr as (es & -> & Hf2). destruct (Forall2_nth _ _ _ _ _ Hf2 Hmm) as (e & Hb & He). unfold dval. cbn [stored_array].
      destruct (mfind (i_props x) name) as [v|] eqn:Ef.
      + destruct (Hown v eq_refl) as (ty & o & -> & Hu & _). destruct (st_props _ _ Hst x name _ Hxi Ef) as [_ Hwf].
        destruct (dval_opt u name es mm x e ty o Hb Ef Hu Hwf He) as (v' & E & Hc). exists v'. split; [exact E|].
        split; [now intros v0 [= <-]|discriminate].
      + destruct (dval_opt_fill u name es mm x e w0 Hb Ef (Hall w0 (or_introl eq_refl)) He) as (v' & E & Hc). exists v'. split; [exact E|].
        split; [discriminate|]. intros _ w Hw.
        destruct (dval_opt_fill u name es mm x e w Hb Ef (Hall w Hw) He) as (v2 & E2 & Hc2). congruence.
  Qed.
  Lemma entries_good : Forall (entry_good q2m xs cl lk shared) entries.
  Proof.
    apply Forall_forall. intros [[j name] a] Hin. destruct (pc_entry _ _ _ _ _ _ _ _ _ _ _ Hp _ _ _ Hin) as (c & ct & Hj & Hk & Hr).
    exists c. cbn [e_id e_arr fst snd]. split; [exact Hj|]. split.
    - rewrite <- (map_length snd (mem xs c)). fold (members xs c). destruct ct as [t|u]; destruct Hr as (l & -> & Hf2); apply Forall2_len in Hf2.
      + cbn. now rewrite map_length.
      + cbn. now rewrite ?map_length.
    - intros mm Hmm. destruct (nth_error (mem xs c) mm) as [[k x]|] eqn:E; [|apply nth_error_None in E; lia].
      destruct (entry_value j name a c mm k x Hin Hj E) as (v' & Hv & _). eauto.
  Qed.
  End Values.

  Lemma fstr_in class name s : written_prop place h nodes class name (RSharedString s) -> In fstr (shared_strings h nodes).
  Proof.
    intros Hw. destruct (kept_written _ _ _ Hw) as (ct & Hk & Hc).
    destruct ct as [t|u]; [|destruct Hc as (? & ? & [=] & _)].
    destruct Hw as ((x & Hx & Ec & Hf) & _).
    assert (Hj : exists j, nth_error cl j = Some class).
    { apply In_nth_error. apply (proj2 Hcl). exists x. split; [now apply (holds_inst _ _ _ _ Hholds)|exact Ec]. }
    destruct Hj as [j Hj]. destruct (pc_kept _ _ _ _ _ _ _ _ _ _ _ Hp _ _ _ _ Hj Hk) as [a Ha].
    destruct (pc_entry _ _ _ _ _ _ _ _ _ _ _ Hp _ _ _ Ha) as (c' & ct & Hj' & Hk' & Hr).
    assert (c' = class) as -> by congruence. rewrite (kept_col_fun _ _ _ _ _ Hk' Hk) in Hr. destruct Hr as (bs & -> & Hf2).
    assert (Hm : In x (members xs class)) by (apply members_inst; auto). apply In_nth_error in Hm. destruct Hm as [mm Hm].
    destruct (Forall2_nth _ _ _ _ _ Hf2 Hm) as (b & _ & He). unfold elem in He. rewrite Hf in He. destruct He as (k & _ & He).
    pose proof (pc_shared _ _ _ _ _ _ _ _ _ _ _ Hp) as [Hok _]. unfold fstr. destruct sh as [|[k0 s0] sh']; [now destruct k|].
    apply (Hok k0 s0). now left.
  Qed.
  Lemma entries_NoDup : NoDup (map ekey entries).
  Proof.
    pose proof (pc_sorted _ _ _ _ _ _ _ _ _ _ _ Hp) as H. clear -H. induction H as [|e es Hs IH Ha]; cbn; constructor; auto.
    intros Hin. apply in_map_iff in Hin. destruct Hin as (e' & E & Hin). rewrite Forall_forall in Ha. specialize (Ha _ Hin).
    injection E as E1 E2. destruct Ha as [Ha|[_ Ha]]; [unfold e_id in *; lia|]. rewrite E2, ltb_irrefl in Ha. discriminate.
  Qed.
  Lemma phases : exists lk h1, lookup_ok lk (mids (order xs cl)) /\ props_inv q2m place xs cl lk (shared) entries h1 /\
    dec_chunk_list q2m f 0 (fm_chunks f) k0 =
      dec_chunk_list q2m f (off + length cl + length entries) (map stored_chunk [Chunk true (prnt_payload ts); Chunk false (PEnd endContent)])
        (Dcs h1 lk [] (fold_left (fun m kv => mset m (fst kv) (snd kv)) m []) shared []).
  Proof.
    rewrite (dec_list_payloads q2m f _ _ 0 k0 Hchunks). unfold chunks, shape_chunks. rewrite !map_app.
    rewrite dec_list_app by (intros c content Hc; unfold meta_chunks in Hc; destruct m; [easy|]; destruct Hc as [<-|[]]; discriminate).
    assert (E1 : dec_chunk_list q2m f 0 (map stored_chunk (meta_chunks m)) k0 =
      OK (Dcs [] [(nilInstance, 0)] [] (fold_left (fun m kv => mset m (fst kv) (snd kv)) m []) [] [])) by (unfold meta_chunks; destruct m; reflexivity).
    rewrite E1. cbn [obind].
    rewrite dec_list_app by (intros c content Hc; unfold sstr_chunks in Hc; destruct sh; [easy|]; destruct Hc as [<-|[]]; discriminate).
    match goal with |- context [dec_chunk_list q2m f ?i (map stored_chunk (sstr_chunks sh)) ?s] =>
      assert (E2 : dec_chunk_list q2m f i (map stored_chunk (sstr_chunks sh)) s =
        OK (Dcs [] [(nilInstance, 0)] [] (fold_left (fun m kv => mset m (fst kv) (snd kv)) m []) shared []))
        by (unfold shared, sstr_chunks; destruct sh; reflexivity) end.
    rewrite E2. cbn [obind].
    rewrite dec_list_app by (intros c content Hc; rewrite map_map in Hc; apply in_map_iff in Hc; destruct Hc as (e & <- & _); discriminate).
    match goal with |- context [dec_chunk_list q2m f ?i (map stored_chunk (map (ichunk place xs) (enum 0 cl))) ?s] =>
      destruct (inst_phase q2m place xs cl f Hcl Hcc ltac:(rewrite Hlen; exact Hic) off groups_here cl [] s eq_refl lookup_ok_nil eq_refl)
        as (lk & E3 & Hlk) end.
    cbn [length Nat.add k_root k_meta k_shared k_warns] in E3. rewrite Nat.add_0_r in E3. unfold stored_ichunk in E3.
    rewrite map_map. unfold off in E3 at 1. rewrite !map_length. cbn [Nat.add]. rewrite E3. cbn [obind].
    rewrite dec_list_app by (intros c content Hc; rewrite map_map in Hc; apply in_map_iff in Hc; destruct Hc as (e & <- & _); discriminate).
    match goal with |- context [dec_chunk_list q2m f ?i (map stored_chunk (map echunk entries)) ?s] =>
      destruct (prop_phase q2m place xs cl f Hcl Hcc ltac:(rewrite Hlen; exact Hic) off groups_here lk shared Hlk entries [] s i entries_NoDup (entries_good lk))
        as (h1 & E4 & Hinv) end.
    { split; [cbn; now rewrite map_length|]. intros q k x Hq. exists []. cbn [k_heap]. split.
      - cbn [hget]. rewrite nth_error_map, Hq. reflexivity.
      - intros name v. split; [discriminate|]. intros (? & ? & ? & ? & [] & _). }
    { reflexivity. } { reflexivity. }
    rewrite map_map. rewrite E4. cbn [obind k_root k_meta k_shared k_warns]. rewrite !map_length. exists lk, h1. split; [exact Hlk|]. split; [exact Hinv|].
    unfold enum. rewrite combine_length, seq_length, Nat.min_id. reflexivity.
  Qed.

  Lemma filter_map_comm {A B} (g : A -> B) (P : B -> bool) l : filter P (map g l) = map g (filter (fun a => P (g a)) l).
  Proof. induction l as [|a l IH]; cbn; [reflexivity|]. rewrite IH. destruct (P (g a)); reflexivity. Qed.
  Lemma combine_map2 {A B C D} (g : A -> C) (k : B -> D) (l : list (A * B)) :
    combine (map g (map fst l)) (map k (map snd l)) = map (fun ab => (g (fst ab), k (snd ab))) l.
  Proof. induction l as [|[a b] l IH]; cbn; [reflexivity|]. now rewrite IH. Qed.
  (** Property by property, the decoded instance at address phi p. *)
  Definition exact_props (lk : look) (h' : heap) : Prop :=
    forall k p x, nth_error nodes k = Some p -> nth_error xs k = Some x -> exists x', hget h' (phi lk p) = Some x' /\
      forall name v, mfind (i_props x') name = Some v <-> exists j a c mm,
        In (j, name, a) entries /\ nth_error cl j = Some c /\ nth_error (mem xs c) mm = Some (k, x) /\ dval q2m lk shared a mm = OK v.
  Theorem decode_shape_full : NoDup (map fst (r_metadata r)) -> exists lk h' mt,
    codec_decode q2m f = OK (Root (map (phi lk) (r_instances r)) mt, h', []) /\ image place h nodes (phi lk) h' /\
    (forall k, mfind mt k = mfind (r_metadata r) k) /\
    lookup_ok lk (mids (order xs cl)) /\ exact_props lk h' /\ mt = fold_left (fun m kv => mset m (fst kv) (snd kv)) m [].
  Proof.
    intros Hmeta. destruct phases as (lk & h1 & Hlk & [Hh1 Hinv] & E). unfold codec_decode. rewrite E. clear E.
    assert (Hsome : forall p, In p nodes -> exists k q x, nth_error nodes k = Some p /\ nth_error xs k = Some x /\ hget h p = Some x /\
       nth_error (order xs cl) q = Some (k, x) /\ phi lk p = S q).
    { intros p Hpn. apply In_nth_error in Hpn. destruct Hpn as [k Hk]. destruct (holds_nth_l _ _ _ _ _ Hholds Hk) as (x & Hx & Hg).
      destruct (phi_nth lk Hlk k p x Hk Hx) as (q & Hq & Hphi). exists k, q, x. auto. }
    assert (Hinj : forall p q, In p nodes -> In q nodes -> phi lk p = phi lk q -> p = q).
    { intros p q H1 H2 H. destruct (Hsome p H1) as (k & i & x & Hk & _ & _ & Hi & Ei). destruct (Hsome q H2) as (k' & i' & x' & Hk' & _ & _ & Hi' & Ei').
      rewrite Ei, Ei' in H. injection H as <-. assert (k' = k) by congruence. subst k'. congruence. }
    assert (Hnn : forall p q, phi lk p = phi lk q -> In p nodes -> p = q).
    { intros p q H H1. destruct (in_dec Nat.eq_dec q nodes) as [H2|H2]; [now apply Hinj|]. rewrite (phi_out lk Hlk q H2) in H.
      destruct (Hsome p H1) as (k & i & x & _ & _ & _ & _ & Ei). lia. }
    cbn [map dec_chunk_list stored_chunk ch_payload stored_payload prnt_payload dec_chunk N.eqb negb].
    rewrite !map_length, Nat.eqb_refl. cbn [negb k_look k_heap k_root k_warns k_meta k_shared].
    rewrite combine_map2. fold (nlink nodes).
    change (fun ab : ptr * ptr => (num (fnodes ts) (fst ab), num (fnodes ts) (snd ab))) with (nlink nodes).
    assert (Hlinks : forall c p, In (c, p) (flinks 0 ts) -> In c nodes /\ (p = 0 \/ In p nodes)).
    { intros c p Hin. split.
      - eapply Permutation_in; [apply (flinks_perm ts 0)|]. apply in_map_iff. exists (c, p). auto.
      - now apply flinks_snd in Hin. }
    assert (H0 : ~ In 0 nodes) by (intros H; exact (nodes_nz 0 H eq_refl)).
    assert (Hnil : forall p, p = 0 \/ In p nodes -> (num nodes p =? nilInstance)%Z = (p =? 0)%nat).
    { intros p [->|H]; [rewrite (num_out 0 H0); reflexivity|]. destruct (Nat.eqb_spec p 0) as [->|]; [contradiction|].
      apply In_nth_error in H. destruct H as [k Hk]. rewrite (num_nth k p Hk). apply Z.eqb_neq. unfold nilInstance. lia. }
    match goal with |- context [dec_links ?ic ?bd lk 0 (map (nlink nodes) (flinks 0 ts)) h1 [] []] =>
      destruct (dec_links_spec ic bd lk (map (nlink nodes) (flinks 0 ts)) 0 h1 [] []) as (h2 & E & Hh2 & Hch) end.
    { rewrite Forall_map. apply Forall_forall. intros [c p] Hin. destruct (Hlinks c p Hin) as [Hc Hpn]. cbn [nlink fst snd].
      destruct (Hsome c Hc) as (k & q & x & Hk & _ & _ & Hq & Eq). split; [|split].
      - rewrite (num_nth k c Hk), Hic. apply small_bounds. apply nth_error_Some. congruence.
      - unfold phi in Eq. lia.
      - destruct Hpn as [->|Hpn]; [left; apply num_out; exact H0|]. right.
        destruct (Hsome p Hpn) as (k' & q' & x' & Hk' & _ & _ & Hq' & Eq'). exists (S q'). destruct (Hinv _ _ _ Hq') as (ps & Hps & _).
        eexists. split; [|exact Hps]. rewrite (num_nth k' p Hk'). destruct Hlk as (_ & L & _). apply L. unfold mids. now rewrite nth_error_map, Hq'. }
    rewrite E. cbn [obind k_root k_meta k_heap k_warns app]. exists lk, h2, (fold_left (fun m kv => mset m (fst kv) (snd kv)) m []).
    split; [|split; [|split; [|split; [exact Hlk|split; [|reflexivity]]]]].
    - f_equal. f_equal. f_equal. f_equal. unfold links_root. rewrite filter_map_comm, map_map. cbn [nlink fst snd].
      rewrite Hroot, <- (under_fparent ts 0 H0). unfold under. rewrite map_map. f_equal.
      apply filter_ext_in. intros [c p] Hin. cbn [snd]. apply Hnil. now apply (Hlinks c p).
    - constructor.
      + rewrite Hh2, Hh1, (order_length xs cl Hcl). exact Hlen.
      + exact Hinj.
      + apply (phi_out lk Hlk).
      + exists fstr. split; [exact fstr_in|]. intros p x Hpn Hx. destruct (Hsome p Hpn) as (k & q & x0 & Hk & Hxk & Hx0 & Hq & Eq).
        assert (x0 = x) as -> by congruence. destruct (Hinv _ _ _ Hq) as (ps & Hps & Hiff).
        specialize (Hch _ _ Hps). rewrite Eq. eexists. split; [exact Hch|]. cbn [i_children app].
        assert (Hxi : inst_in h nodes x) by (exists p; auto).
        assert (Hcj : exists j, nth_error cl j = Some (i_class x)).
        { apply In_nth_error. apply (proj2 Hcl). exists x. split; [eapply nth_error_In; eauto|reflexivity]. }
        destruct Hcj as [j Hj].
        assert (Hmm : exists mm, nth_error (mem xs (i_class x)) mm = Some (k, x)) by (apply In_nth_error, mem_In; auto).
        destruct Hmm as [mm Hmm].
        constructor; cbn [set_children i_class i_service i_ref i_children i_props]; auto.
        * unfold links_to. rewrite filter_map_comm, map_map. cbn [nlink fst snd].
          rewrite <- (under_forest h ts (proj1 Hforest) (proj2 Hforest) 0 p x H0 Hpn Hx). unfold under. rewrite map_map. f_equal.
          apply filter_ext_in. intros [c p'] Hin. cbn [snd]. destruct (Hlinks c p' Hin) as [_ Hp'].
          rewrite (Hnil p' Hp'). destruct (Nat.eqb_spec p' 0) as [->|Hz]; cbn [negb andb].
          -- destruct (Nat.eqb_spec 0 p) as [<-|]; [contradiction|reflexivity].
          -- destruct Hp' as [Hp'|Hp']; [contradiction|]. rewrite <- Eq. change (lget lk (num nodes p')) with (phi lk p').
             destruct (Nat.eqb_spec p' p) as [->|Hne]; [apply Nat.eqb_refl|]. apply Nat.eqb_neq. intros H. apply Hne. now apply Hinj.
        * intros name v Hf Hw. destruct (kept_written _ _ _ Hw) as (ct & Hkc & _).
          destruct (pc_kept _ _ _ _ _ _ _ _ _ _ _ Hp _ _ _ _ Hj Hkc) as [a Ha].
          destruct (entry_value lk j name a _ mm k x Ha Hj Hmm) as (v' & Hv' & Hhas & _). exists v'. split; [|now apply Hhas].
          apply Hiff. exists j, a, (i_class x), mm. auto.
        * intros name w Hf Hw. destruct (kept_written _ _ _ Hw) as (ct & Hkc & _).
          destruct (pc_kept _ _ _ _ _ _ _ _ _ _ _ Hp _ _ _ _ Hj Hkc) as [a Ha].
          destruct (entry_value lk j name a _ mm k x Ha Hj Hmm) as (v' & Hv' & _ & Hfill). exists v'. split.
          -- apply Hiff. exists j, a, (i_class x), mm. auto.
          -- apply (Hfill Hf). destruct Hw as ((y & Hy & Hcy & Hg) & _). apply prop_values_In. exists y. split; [apply members_inst; auto|exact Hg].
        * intros name Hno. destruct (mfind ps name) as [v|] eqn:Ef; [|reflexivity]. exfalso. apply Hiff in Ef.
          destruct Ef as (j' & a & c & m' & Ha & Hj' & Hm' & _). destruct (pc_entry _ _ _ _ _ _ _ _ _ _ _ Hp _ _ _ Ha) as (c' & ct & Hj2 & Hkc & _).
          assert (c' = c) as -> by congruence. apply nth_error_In, mem_In in Hm'. destruct Hm' as [_ Hc]. subst c.
          destruct (prop_values (members xs (i_class x)) name) as [|w pv] eqn:Epv; [destruct Hkc as [Hkc _]; congruence|].
          apply (Hno w). eapply written_kept; [exact Hkc|]. rewrite Epv. now left.
    - intros k. pose proof (pc_meta _ _ _ _ _ _ _ _ _ _ _ Hp) as Hpm.
      assert (Hnm : NoDup (map fst m)) by (eapply Permutation_NoDup; [apply Permutation_map; exact Hpm|exact Hmeta]).
      rewrite fold_mset_find by exact Hnm. cbn [mfind].
      rewrite <- (mfind_perm _ _ k Hmeta Hpm). destruct (mfind (r_metadata r) k); reflexivity.
    - intros k p x Hk Hxk. destruct (phi_nth lk Hlk k p x Hk Hxk) as (q & Hq & Eq). destruct (Hinv _ _ _ Hq) as (ps & Hps & Hiff).
      specialize (Hch _ _ Hps). rewrite Eq. eexists. split; [exact Hch|]. exact Hiff.
  Qed.
  Theorem decode_shape : NoDup (map fst (r_metadata r)) -> exists phi h' mt,
    codec_decode q2m f = OK (Root (map phi (r_instances r)) mt, h', []) /\ image place h nodes phi h' /\
    (forall k, mfind mt k = mfind (r_metadata r) k).
  Proof.
    intros H. destruct (decode_shape_full H) as (lk & h' & mt & H1 & H2 & H3 & _). exists (phi lk), h', mt. auto.
  Qed.
End Image.
