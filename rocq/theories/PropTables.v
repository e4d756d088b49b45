(** PropTables.v - what the encoder puts into the chunks of a file. *)
From Coq Require Import Permutation Sorting.Sorted.
From Verif Require Import Base RbxlValues RbxlArrays RbxlModel RbxlFile RbxlFileProofs RbxValues Tree RbxlCodec RbxlApi
  SpecValues SpecArrays SpecWire SpecModel SpecFile SpecTree SpecCodec SpecTables TreeProofs SortProofs PropFile PropCodecValues RbxlCodecEnc
  RbxlCodecCols RbxlCodecOut RbxlCodecShape RbxlCodecDec RbxlCodecRound RbxlCodecImage RbxlCodecFile PropCodec.

(** ** Tables of the produced chunks *)
Section Tables.
  Variables (place : bool) (ts : list rtree) (xs : list inst).
  Variables (m : list (bytes * bytes)) (sh : shareds) (cl : list bytes) (entries : list entry).
  Let cs := shape_chunks place ts xs m sh cl entries.
  Let nodes := fnodes ts.
  Lemma flat_map_nil {A B} (f : A -> list B) l : (forall a, f a = []) -> flat_map f l = [].
  Proof. intros H. induction l as [|a l IH]; cbn; [reflexivity|]. now rewrite H, IH. Qed.
  Lemma flat_map_map {A B C} (f : B -> list C) (g : A -> B) l : flat_map f (map g l) = flat_map (fun a => f (g a)) l.
  Proof. induction l as [|a l IH]; cbn; [reflexivity|]. now rewrite IH. Qed.
  Lemma flat_map_one {A B} (f : A -> B) l : flat_map (fun a => [f a]) l = map f l.
  Proof. induction l as [|a l IH]; cbn; [reflexivity|]. now rewrite IH. Qed.
  Ltac go := unfold cs, shape_chunks; rewrite !flat_map_app, !flat_map_map; unfold meta_chunks, sstr_chunks;
    cbn [ch_payload ichunk echunk prnt_payload flat_map app].
  Lemma table_groups : groups_in cs = map (fun jc => Group (Z.of_nat (fst jc)) (snd jc) (mids (mem xs (snd jc)))) (enum 0 cl).
  Proof.
    unfold groups_in. go. rewrite (flat_map_nil _ entries) by reflexivity. rewrite app_nil_r.
    rewrite flat_map_one. destruct m, sh; reflexivity.
  Qed.
  Lemma table_columns : columns_in cs = map (fun e => (Z.of_nat (e_id e), e_name e, Some (e_arr e))) entries.
  Proof.
    unfold columns_in. go. rewrite (flat_map_nil _ (enum 0 cl)) by reflexivity. rewrite flat_map_one, app_nil_r. destruct m, sh; reflexivity.
  Qed.
  Lemma table_links : links_in cs = [map (nlink nodes) (flinks 0 ts)].
  Proof.
    unfold links_in. go. rewrite (flat_map_nil _ (enum 0 cl)), (flat_map_nil _ entries) by reflexivity.
    rewrite combine_map2. fold nodes. destruct m, sh; reflexivity.
  Qed.
  Lemma table_meta : metadata_in cs = match m with [] => [] | _ => [m] end.
  Proof.
    unfold metadata_in. go. rewrite (flat_map_nil _ (enum 0 cl)), (flat_map_nil _ entries) by reflexivity.
    destruct m, sh; reflexivity.
  Qed.
  Lemma table_strings : strings_in cs = match sh with [] => [] | _ => [map snd sh] end.
  Proof.
    unfold strings_in. go. rewrite (flat_map_nil _ (enum 0 cl)), (flat_map_nil _ entries) by reflexivity.
    destruct m, sh; cbn; try reflexivity; rewrite ?map_map; reflexivity.
  Qed.
End Tables.

(** ** C21: numbering *)
Lemma flinks_iff h ts : Forall (tree_at h) ts -> forall parent c q,
  In (c, q) (flinks parent ts) <->
  (q = parent /\ In c (map rroot ts)) \/ exists p x, In p (fnodes ts) /\ hget h p = Some x /\ In c (i_children x) /\ q = p.
Proof.
  intros H.
  assert (Ht : forall t, tree_at h t -> forall parent c q, In (c, q) (plinks parent t) <->
    (q = parent /\ c = rroot t) \/ exists p x, In p (rnodes t) /\ hget h p = Some x /\ In c (i_children x) /\ q = p).
  { fix IH 2. intros t Ht. destruct Ht as [p us i Hi Hc Hu]. intros parent c q. rewrite plinks_node, in_app_iff. cbn [In rroot]. rewrite rnodes_node.
    assert (E : In (c, q) (flinks p us) <-> (q = p /\ In c (map rroot us)) \/
      exists p0 x, In p0 (fnodes us) /\ hget h p0 = Some x /\ In c (i_children x) /\ q = p0).
    { clear Hc. induction Hu as [|u us Hu Hus IHus].
      - split; [intros []|]. intros [[_ []]|(? & ? & [] & _)].
      - rewrite flinks_cons, in_app_iff, (IH u Hu), IHus, fnodes_cons. cbn [map In]. split.
        + intros [[[-> ->]|(p0 & x & H1 & H2)]|[[-> H1]|(p0 & x & H1 & H2)]]; [auto| |auto|]; right; exists p0, x; rewrite in_app_iff; auto.
        + intros [[-> [->|H1]]|(p0 & x & H1 & H2)]; [auto|auto|]. apply in_app_iff in H1. destruct H1 as [H1|H1]; [left|right]; right; eauto. }
    rewrite E, <- Hc. split.
    - intros [[[-> H1]|(p0 & x & H1 & H2)]|[[= -> ->]|[]]]; [|right; exists p0, x; split; [now right|exact H2]|auto].
      right. exists p, i. split; [now left|auto].
    - intros [[-> ->]|(p0 & x & [<-|H1] & H2 & H3 & H4)]; [right; now left| |]; left.
      + subst q. left. assert (x = i) as -> by congruence. auto.
      + right. exists p0, x. auto. }
  intros parent c q. induction H as [|t us Hu Hus IHus].
  - split; [intros []|]. intros [[_ []]|(? & ? & [] & _)].
  - rewrite flinks_cons, in_app_iff, (Ht t Hu), IHus, fnodes_cons. cbn [map In]. split.
    + intros [[[-> ->]|(p0 & x & H1 & H2)]|[[-> H1]|(p0 & x & H1 & H2)]]; [auto| |auto|]; right; exists p0, x; rewrite in_app_iff; auto.
    + intros [[-> [->|H1]]|(p0 & x & H1 & H2)]; [auto|auto|]. apply in_app_iff in H1. destruct H1 as [H1|H1]; [left|right]; right; eauto.
Qed.

Lemma list_ext {A} : forall l l' : list A, (forall k, nth_error l k = nth_error l' k) -> l = l'.
Proof.
  induction l as [|a l IH]; intros [|b l'] H; [reflexivity|discriminate (H 0)|discriminate (H 0)|].
  pose proof (H 0) as H0. cbn in H0. injection H0 as ->. f_equal. apply IH. intros k. exact (H (S k)).
Qed.
Section Written.
  Variables (ev : env) (place : bool) (h : heap) (r : root) (ts : list rtree) (f : fmodel) (ws : list cwarn).
  Let nodes := fnodes ts.
  Hypothesis Hev : orders_ok ev.
  Hypothesis Hf : forest_at h ts.
  Hypothesis Hr : r_instances r = map rroot ts.
  Hypothesis Hst : storable h nodes.
  Hypothesis Hcol : no_collision (ev_hash ev) h nodes.
  Hypothesis Henc : codec_encode ev place h (Some r) = OK (f, ws).

  Lemma written_shape : exists xs m sh cl entries,
    holds h nodes xs /\ pieces ev place h r ts xs m sh cl entries ws /\
    f = FModel 0 (N.of_nat (length cl)) (N.of_nat (length nodes)) (shape_chunks place ts xs m sh cl entries) [] [].
  Proof.
    destruct (forest_holds h ts Hf) as [xs Hx].
    destruct (encode_shape ev place h r ts xs Hev Hf Hr Hst Hcol Hx) as (m & sh & cl & entries & cws & Hp & E).
    rewrite E in Henc. apply OK_pair in Henc. destruct Henc as [<- ->]. exists xs, m, sh, cl, entries. auto.
  Qed.
  Lemma num_of k p : nth_error nodes k = Some p -> num nodes p = Z.of_nat k.
  Proof.
    destruct (forest_holds h ts Hf) as [xs Hx].
    exact (num_nth h ts xs Hf Hst Hx [] (FModel 0 0 (N.of_nat (length (fnodes ts))) [] [] []) eq_refl eq_refl k p).
  Qed.
  Lemma num_root : num nodes 0 = (-1)%Z.
  Proof. reflexivity. Qed.

  Theorem numbering_written : exists links,
    fm_instCount f = N.of_nat (length nodes) /\
    Permutation (flat_map gr_ids (groups_in (fm_chunks f))) (ids_below (length nodes)) /\
    (forall k p x, numbered h nodes k p x ->
       exists g, In g (groups_in (fm_chunks f)) /\ gr_class g = i_class x /\ In (Z.of_nat k) (gr_ids g)) /\
    links_in (fm_chunks f) = [links] /\
    Permutation (map fst links) (ids_below (length nodes)) /\
    (forall c p, In (c, p) links <-> link_of h (r_instances r) nodes c p).
  Proof.
    destruct written_shape as (xs & m & sh & cl & entries & Hx & Hp & ->). cbn [fm_instCount fm_chunks].
    pose proof (pc_classes _ _ _ _ _ _ _ _ _ _ _ Hp) as Hcl. pose proof (holds_length _ _ _ Hx) as Hlen.
    rewrite table_groups, table_links. fold nodes. exists (map (nlink nodes) (flinks 0 ts)). split; [reflexivity|]. split; [|split; [|split; [reflexivity|split]]].
    - rewrite flat_map_map. cbn [gr_ids].
      replace (flat_map (fun a => mids (mem xs (snd a))) (enum 0 cl)) with (map Z.of_nat (map fst (order xs cl))).
      + unfold ids_below. apply Permutation_map. rewrite <- Hlen. now apply order_perm.
      + unfold order, mids. rewrite map_map. rewrite <- (enum_snd 0 cl) at 1. generalize (enum 0 cl). intros l.
        induction l as [|[j c] l IH]; cbn; [reflexivity|]. now rewrite map_app, IH.
    - intros k p x [Hk Hg]. destruct (holds_nth_l _ _ _ _ _ Hx Hk) as (x' & Hxk & Hg'). assert (x' = x) as -> by congruence.
      assert (Hin : In (i_class x) cl) by (apply (proj2 Hcl); exists x; split; [eapply nth_error_In; eauto|reflexivity]).
      apply In_nth_error in Hin. destruct Hin as [j Hj]. eexists. split; [|split].
      + apply in_map_iff. exists (j, i_class x). split; [reflexivity|]. apply enum_In. rewrite Nat.sub_0_r. split; [lia|exact Hj].
      + reflexivity.
      + cbn [gr_ids snd]. unfold mids. apply in_map_iff. exists (k, x). split; [reflexivity|]. apply mem_In. auto.
    - rewrite map_map. cbn [nlink fst]. rewrite <- (map_map fst (num nodes)).
      etransitivity; [apply Permutation_map, flinks_perm|]. fold nodes. unfold ids_below.
      replace (map (num nodes) nodes) with (map Z.of_nat (seq 0 (length nodes))); [reflexivity|].
      apply list_ext. intros k. rewrite !nth_error_map.
      destruct (nth_error nodes k) as [p|] eqn:E.
      + cbn. rewrite (num_of k p E). assert (Hk : k < length nodes) by (apply nth_error_Some; congruence).
        rewrite (nth_error_nth' _ 0) by (rewrite seq_length; exact Hk). rewrite seq_nth by exact Hk. reflexivity.
      + assert (Hk : nth_error (seq 0 (length nodes)) k = None) by (apply nth_error_None; rewrite seq_length; now apply nth_error_None). now rewrite Hk.
    - intros c p. rewrite in_map_iff, Hr. split.
      + intros ([c0 p0] & [= <- <-] & Hin). pose proof Hin as Hin'. apply (flinks_iff h ts (proj1 Hf)) in Hin.
        assert (Hc : In c0 nodes) by (eapply Permutation_in; [apply (flinks_perm ts 0)|]; apply in_map_iff; exists (c0, p0); auto).
        apply In_nth_error in Hc. destruct Hc as [k Hk]. exists k, c0. split; [now apply num_of|]. split; [exact Hk|].
        destruct Hin as [[-> Hin]|(q & x & Hq & Hg & Hin & ->)]; [left; split; [apply num_root|exact Hin]|].
        right. apply In_nth_error in Hq. destruct Hq as [j Hj]. exists j, q, x. split; [now apply num_of|]. split; [split; assumption|exact Hin].
      + intros (k & c0 & -> & Hk & [[-> Hin]|(j & q & x & -> & [Hj Hg] & Hin)]).
        * exists (c0, 0). split; [unfold nlink; cbn [fst snd]; now rewrite (num_of k c0 Hk), num_root|]. apply (flinks_iff h ts (proj1 Hf)). left. auto.
        * exists (c0, q). split; [unfold nlink; cbn [fst snd]; now rewrite (num_of k c0 Hk), (num_of j q Hj)|].
          apply (flinks_iff h ts (proj1 Hf)). right. exists q, x. split; [eapply nth_error_In; eauto|auto].
  Qed.

  Theorem groups_written :
    let gs := groups_in (fm_chunks f) in
    fm_classCount f = N.of_nat (length gs) /\
    map gr_id gs = ids_below (length gs) /\
    StronglySorted before (map gr_class gs) /\
    (forall c, In c (map gr_class gs) <-> exists x, inst_in h nodes x /\ i_class x = c) /\
    Forall (fun g => StronglySorted Z.lt (gr_ids g)) gs /\
    (forall g z, In g gs -> In z (gr_ids g) ->
       exists k p x, z = Z.of_nat k /\ numbered h nodes k p x /\ i_class x = gr_class g).
  Proof.
    destruct written_shape as (xs & m & sh & cl & entries & Hx & Hp & ->). cbn [fm_classCount fm_chunks].
    pose proof (pc_classes _ _ _ _ _ _ _ _ _ _ _ Hp) as Hcl. rewrite table_groups. cbn zeta.
    rewrite !map_map. cbn [gr_id gr_class].
    assert (Hln : length (enum 0 cl) = length cl) by (rewrite <- (map_length snd), enum_snd; reflexivity).
    rewrite map_length, Hln. split; [reflexivity|]. split; [|split; [|split; [|split]]].
    - unfold ids_below. rewrite <- (map_map fst Z.of_nat), enum_fst. reflexivity.
    - rewrite enum_snd. exact (proj1 Hcl).
    - intros c. rewrite enum_snd, (proj2 Hcl). split; intros (x & H1 & H2); exists x; (split; [now apply (holds_inst _ _ _ _ Hx)|exact H2]).
    - rewrite Forall_map. apply Forall_forall. intros [j c] _. cbn [gr_ids snd]. unfold mids, mem, enum.
      generalize (length xs) 0. generalize xs. clear.
      intros xs n. revert xs. induction n as [|n IH]; intros [|x xs] k; cbn [seq combine filter map]; try constructor.
      destruct (in_class c (k, x)); [|apply IH]. cbn [map]. constructor; [apply IH|].
      apply Forall_forall. intros z Hz. apply in_map_iff in Hz. destruct Hz as ([i y] & <- & Hz). apply filter_In in Hz.
      destruct Hz as [Hz _]. apply in_combine_l, in_seq in Hz. cbn [fst]. lia.
    - intros g z Hg Hz. apply in_map_iff in Hg. destruct Hg as ([j c] & <- & _). cbn [gr_ids gr_class snd] in *.
      unfold mids in Hz. apply in_map_iff in Hz. destruct Hz as ([k x] & <- & Hm). apply mem_In in Hm. destruct Hm as [Hk Hc].
      destruct (holds_nth _ _ _ _ _ Hx Hk) as (p & Hn & Hg). exists k, p, x. split; [reflexivity|]. split; [split; assumption|exact Hc].
  Qed.

  (** Where a written property of an instance is. *)
  Lemma column_of xs m sh cl entries : holds h nodes xs -> pieces ev place h r ts xs m sh cl entries ws ->
    forall k p x name w, numbered h nodes k p x -> written_prop place h nodes (i_class x) name w ->
    exists ct id i a, kept_col place (members xs (i_class x)) name ct /\ is_col ct w /\
      placed (shape_chunks place ts xs m sh cl entries) k (i_class x) id i /\ nth_error (members xs (i_class x)) i = Some x /\
      In (id, name, Some a) (columns_in (shape_chunks place ts xs m sh cl entries)) /\
      col_result ev nodes name sh (members xs (i_class x)) ct a.
  Proof.
    intros Hx Hp k p x name w [Hk Hg] Hw. pose proof (pc_classes _ _ _ _ _ _ _ _ _ _ _ Hp) as Hcl.
    destruct (kept_written place h ts xs Hst Hx _ _ _ Hw) as (ct & Hkc & Hc).
    destruct (holds_nth_l _ _ _ _ _ Hx Hk) as (x' & Hxk & Hg'). assert (x' = x) as -> by congruence.
    assert (Hin : In (i_class x) cl) by (apply (proj2 Hcl); exists x; split; [eapply nth_error_In; eauto|reflexivity]).
    apply In_nth_error in Hin. destruct Hin as [j Hj].
    destruct (pc_kept _ _ _ _ _ _ _ _ _ _ _ Hp _ _ _ _ Hj Hkc) as [a Ha].
    destruct (pc_entry _ _ _ _ _ _ _ _ _ _ _ Hp _ _ _ Ha) as (c' & ct' & Hj' & Hk' & Hr').
    assert (c' = i_class x) as -> by congruence. rewrite (kept_col_fun _ _ _ _ _ Hk' Hkc) in Hr'.
    assert (Hm : In (k, x) (mem xs (i_class x))) by (apply mem_In; auto). apply In_nth_error in Hm. destruct Hm as [i Hi].
    exists ct, (Z.of_nat j), i, a. split; [exact Hkc|]. split; [exact Hc|]. split; [|split; [|split; [|exact Hr']]].
    - exists (mids (mem xs (i_class x))). rewrite table_groups. split.
      + apply in_map_iff. exists (j, i_class x). split; [reflexivity|]. apply enum_In. rewrite Nat.sub_0_r. split; [lia|exact Hj].
      + unfold mids. now rewrite nth_error_map, Hi.
    - unfold members. now rewrite nth_error_map, Hi.
    - rewrite table_columns. apply in_map_iff. exists (j, name, a). auto.
  Qed.

  Theorem shared_written : exists ss,
    strings_in (fm_chunks f) = match ss with [] => [] | _ => [ss] end /\
    NoDup ss /\ incl ss (shared_strings h nodes) /\
    (forall k p x name s, numbered h nodes k p x -> mfind (i_props x) name = Some (RSharedString s) ->
       written_prop place h nodes (i_class x) name (RSharedString s) ->
       exists id i vs n, placed (fm_chunks f) k (i_class x) id i /\
         In (id, name, Some (ARR tSharedString vs)) (columns_in (fm_chunks f)) /\
         nth_error vs i = Some (VSharedString (N.of_nat n)) /\ nth_error ss n = Some s).
  Proof.
    destruct written_shape as (xs & m & sh & cl & entries & Hx & Hp & ->). cbn [fm_classCount fm_chunks].
    pose proof (pc_shared _ _ _ _ _ _ _ _ _ _ _ Hp) as Hok.
    exists (map snd sh). rewrite table_strings. split; [destruct sh; reflexivity|]. split; [eapply shared_nodup; eauto|]. split.
    - intros s Hs. apply in_map_iff in Hs. destruct Hs as ([k s'] & <- & Hs). exact (proj2 (proj1 Hok _ _ Hs)).
    - intros k p x name s Hk Hm Hw. destruct (column_of _ _ _ _ _ Hx Hp _ _ _ _ _ Hk Hw) as (ct & id & i & a & Hkc & Hc & Hpl & Hi & Ha & Hcr).
      destruct ct as [t|u]; [|destruct Hc as (? & ? & [=] & _)]. destruct Hc as [Hc _]. injection Hc as <-. destruct Hcr as (bs & -> & Hf2).
      destruct (Forall2_nth _ _ _ _ _ Hf2 Hi) as (b & Hb & He). unfold elem in He. rewrite Hm in He. destruct He as (n & -> & Hn).
      exists id, i, bs, n. split; [exact Hpl|]. split; [exact Ha|]. split; [exact Hb|]. rewrite nth_error_map, Hn. reflexivity.
  Qed.

  Theorem metadata_written :
    (r_metadata r = [] -> metadata_in (fm_chunks f) = []) /\
    (r_metadata r <> [] -> exists m, metadata_in (fm_chunks f) = [m] /\ Permutation (r_metadata r) m).
  Proof.
    destruct written_shape as (xs & m & sh & cl & entries & Hx & Hp & ->). cbn [fm_chunks]. rewrite table_meta.
    pose proof (pc_meta _ _ _ _ _ _ _ _ _ _ _ Hp) as Hm. split.
    - intros E. rewrite E in Hm. apply Permutation_nil in Hm. now subst.
    - intros Hne. exists m. split; [|exact Hm]. destruct m; [|reflexivity]. symmetry in Hm. apply Permutation_nil in Hm. contradiction.
  Qed.

  Lemma class_values_eq xs : holds h nodes xs -> forall c name, class_values h nodes c name = prop_values (members xs c) name.
  Proof.
    intros Hx c name. unfold class_values, members, mem, enum. generalize 0. unfold holds in Hx. revert Hx. generalize nodes. clear. intros nodes Hx.
    induction Hx as [|p x l xs Hg Hx IH]; intros n; [reflexivity|]. cbn [flat_map length seq combine filter].
    rewrite Hg. unfold in_class at 1. cbn [snd]. rewrite (IH (S n)). destruct (bytes_eqb (i_class x) c); reflexivity.
  Qed.
  Lemma all_or_mixed (vs : list rvalue) v t : vt v = Some t ->
    Forall (fun w => vt w = Some t) vs \/ exists u, mixed t u (v :: vs).
  Proof.
    intros Hv.
    assert (E : Forall (fun w => vt w = Some t) vs \/ exists xs w ys u, vs = xs ++ w :: ys /\ Forall (fun w => vt w = Some t) xs /\ vt w = Some u /\ u <> t).
    { induction vs as [|w vs IH]; [left; constructor|]. destruct (vt_some w) as [u Hu]. destruct (tid_eqb u t) eqn:Et.
      - apply tid_eqb_eq in Et. subst u. destruct IH as [IH|(xs & w' & ys & u & -> & H1 & H2 & H3)]; [left; now constructor|].
        right. exists (w :: xs), w', ys, u. split; [reflexivity|]. split; [now constructor|auto].
      - apply tid_eqb_neq in Et. right. exists [], w, vs, u. split; [reflexivity|]. split; [constructor|auto]. }
    destruct E as [E|(xs & w & ys & u & -> & H1 & H2 & H3)]; [now left|]. right. exists u. now constructor.
  Qed.
  Theorem warnings_written :
    (forall w, In w ws -> exists j class name t u, w = CW j sigINST (CMismatch (Some u) (Some t) class name)) /\
    (forall class name,
       (exists j t u, In (CW j sigINST (CMismatch (Some u) (Some t) class name)) ws) <->
       mixed_types h nodes class name /\
       (place = true \/ hd_error (map rtype (class_values h nodes class name)) <> Some TypeUniqueId)).
  Proof.
    destruct written_shape as (xs & m & sh & cl & entries & Hx & Hp & ->). pose proof (pc_warns _ _ _ _ _ _ _ _ _ _ _ Hp) as Hw.
    pose proof (pc_classes _ _ _ _ _ _ _ _ _ _ _ Hp) as Hcl. split.
    { intros w Hin. apply Hw in Hin. destruct Hin as (j & c & name & t & u & _ & -> & _). eauto 7. }
    intros class name. rewrite (class_values_eq xs Hx). split.
    - intros (j & t & u & Hin). apply Hw in Hin. destruct Hin as (j' & c & name' & t' & u' & Hj & E & [Hm Hpl]).
      assert (c = class /\ name' = name /\ t' = t /\ u' = u) as (-> & -> & -> & ->) by (injection E; auto). clear E. split.
      + intros Ha. inversion Hm as [v vs w vs' Hv Hvs Hw' Hne E]. apply Hne.
        assert (Iv : In v (prop_values (members xs class) name)) by (rewrite <- E; now left).
        assert (Iw : In w (prop_values (members xs class) name)) by (rewrite <- E; right; apply in_or_app; right; now left).
        apply prop_values_In in Iv, Iw. destruct Iv as (y & Hy & Hfy), Iw as (z & Hz & Hfz).
        apply (members_inst h ts xs Hx) in Hy, Hz. symmetry. apply (stored_type_eq _ _ _ _ Hv Hw'). eapply (Ha y z); tauto.
      + destruct Hpl as [Hpl|Hpl]; [now left|]. right. inversion Hm as [v vs w vs' Hv Hvs Hw' Hne E]. cbn. intros [= Et]. apply Hpl.
        unfold vt in Hv. rewrite Et in Hv. cbn in Hv. congruence.
    - intros [Hmix Hpl]. destruct (prop_values (members xs class) name) as [|v vs] eqn:Epv.
      + exfalso. apply Hmix. intros x y a b Hxi _ Hcx _ Ha _. exfalso.
        assert (I : In a (prop_values (members xs class) name)) by (apply prop_values_In; exists x; split; [apply (members_inst h ts xs Hx); auto|exact Ha]).
        rewrite Epv in I. destruct I.
      + destruct (vt_some v) as [t Ht]. destruct (all_or_mixed vs v t Ht) as [Hall|[u Hu]].
        * exfalso. apply Hmix. intros x y a b Hxi Hyi Hcx Hcy Ha Hb.
          assert (Hall' : forall z w, inst_in h nodes z -> i_class z = class -> mfind (i_props z) name = Some w -> vt w = Some t).
          { intros z w Hz Hcz Hfz.
            assert (I : In w (prop_values (members xs class) name)) by (apply prop_values_In; exists z; split; [apply (members_inst h ts xs Hx); auto|exact Hfz]).
            rewrite Epv in I. destruct I as [<-|I]; [exact Ht|]. rewrite Forall_forall in Hall. now apply Hall. }
          apply (stored_type_eq _ _ _ _ (Hall' x a Hxi Hcx Ha) (Hall' y b Hyi Hcy Hb)). reflexivity.
        * assert (Hc : In class cl).
          { apply (proj2 Hcl). assert (I : In v (prop_values (members xs class) name)) by (rewrite Epv; now left).
            apply prop_values_In in I. destruct I as (x & Hxm & _). apply members_In in Hxm. exists x. exact Hxm. }
          apply In_nth_error in Hc. destruct Hc as [j Hj]. exists j, t, u. apply Hw. exists j, class, name, t, u.
          split; [exact Hj|]. split; [reflexivity|]. split; [rewrite Epv; exact Hu|].
          destruct Hpl as [Hpl|Hpl]; [now left|]. right. intros ->. apply Hpl. cbn. destruct v; try discriminate Ht. reflexivity.
  Qed.
End Written.

(** C21: the instances reachable from the root, in depth-first order, parents
    first, have the ids 0, 1, ..., n-1; each id is in exactly one group, that
    of its class, and exactly once in the one PRNT chunk, with its parent. *)
Theorem C21_numbering : forall ev place h r ts f ws,
  orders_ok ev -> forest_at h ts -> r_instances r = map rroot ts ->
  storable h (fnodes ts) -> no_collision (ev_hash ev) h (fnodes ts) ->
  codec_encode ev place h (Some r) = OK (f, ws) ->
  exists links,
    fm_instCount f = N.of_nat (length (fnodes ts)) /\
    Permutation (flat_map gr_ids (groups_in (fm_chunks f))) (ids_below (length (fnodes ts))) /\
    (forall k p x, numbered h (fnodes ts) k p x ->
       exists g, In g (groups_in (fm_chunks f)) /\ gr_class g = i_class x /\ In (Z.of_nat k) (gr_ids g)) /\
    links_in (fm_chunks f) = [links] /\
    Permutation (map fst links) (ids_below (length (fnodes ts))) /\
    (forall c p, In (c, p) links <-> link_of h (r_instances r) (fnodes ts) c p).
Proof. intros. eapply numbering_written; eauto. Qed.

(** C22: one group per class, sorted by class name and numbered, with
    increasing ids. *)
Theorem C22_groups : forall ev place h r ts f ws,
  orders_ok ev -> forest_at h ts -> r_instances r = map rroot ts ->
  storable h (fnodes ts) -> no_collision (ev_hash ev) h (fnodes ts) ->
  codec_encode ev place h (Some r) = OK (f, ws) ->
  let gs := groups_in (fm_chunks f) in
  fm_classCount f = N.of_nat (length gs) /\
  map gr_id gs = ids_below (length gs) /\
  StronglySorted before (map gr_class gs) /\
  (forall c, In c (map gr_class gs) <-> exists x, inst_in h (fnodes ts) x /\ i_class x = c) /\
  Forall (fun g => StronglySorted Z.lt (gr_ids g)) gs /\
  (forall g z, In g gs -> In z (gr_ids g) ->
     exists k p x, z = Z.of_nat k /\ numbered h (fnodes ts) k p x /\ i_class x = gr_class g).
Proof. intros. eapply groups_written; eauto. Qed.

(** C26: each shared string is once in the table, and written properties have
    its index there. *)
Theorem C26_shared_strings : forall ev place h r ts f ws,
  orders_ok ev -> forest_at h ts -> r_instances r = map rroot ts ->
  storable h (fnodes ts) -> no_collision (ev_hash ev) h (fnodes ts) ->
  codec_encode ev place h (Some r) = OK (f, ws) ->
  exists ss,
    strings_in (fm_chunks f) = match ss with [] => [] | _ => [ss] end /\
    NoDup ss /\ incl ss (shared_strings h (fnodes ts)) /\
    (forall k p x name s, numbered h (fnodes ts) k p x -> mfind (i_props x) name = Some (RSharedString s) ->
       written_prop place h (fnodes ts) (i_class x) name (RSharedString s) ->
       exists id i vs n, placed (fm_chunks f) k (i_class x) id i /\
         In (id, name, Some (ARR tSharedString vs)) (columns_in (fm_chunks f)) /\
         nth_error vs i = Some (VSharedString (N.of_nat n)) /\ nth_error ss n = Some s).
Proof. intros. eapply shared_written; eauto. Qed.
(** Decoding an index gives that string, and nothing (an empty string) when
    there is no such index. *)
Theorem C26_index_decoded : forall q2m lk shared vs i n,
  nth_error vs i = Some (VSharedString n) ->
  dec_value q2m lk shared (ARR tSharedString vs) i =
    OK (RSharedString (match nth_error shared (N.to_nat n) with Some (_, s) => s | None => [] end)).
Proof.
  intros q2m lk shared vs i n H. cbn. rewrite H. f_equal. f_equal.
  destruct (nth_error shared (N.to_nat n)) as [[k s]|] eqn:E.
  - assert (N.to_nat n < length shared) by (apply nth_error_Some; congruence).
    destruct (N.ltb_spec n (N.of_nat (length shared))); [|lia]. now rewrite (nth_error_nth _ _ _ E).
  - apply nth_error_None in E. destruct (N.ltb_spec n (N.of_nat (length shared))); [lia|reflexivity].
Qed.

(** C27: the META chunk has exactly the metadata. *)
Theorem C27_metadata_written : forall ev place h r ts f ws,
  orders_ok ev -> forest_at h ts -> r_instances r = map rroot ts ->
  storable h (fnodes ts) -> no_collision (ev_hash ev) h (fnodes ts) ->
  codec_encode ev place h (Some r) = OK (f, ws) ->
  (r_metadata r = [] -> metadata_in (fm_chunks f) = []) /\
  (r_metadata r <> [] -> exists m, metadata_in (fm_chunks f) = [m] /\ Permutation (r_metadata r) m).
Proof. intros. eapply metadata_written; eauto. Qed.

(** C39: the codec warns about exactly the properties with mixed types (in
    models, not when the first value is a unique id: those are left out
    anyway). *)
Theorem C39_codec_warnings : forall ev place h r ts f ws,
  orders_ok ev -> forest_at h ts -> r_instances r = map rroot ts ->
  storable h (fnodes ts) -> no_collision (ev_hash ev) h (fnodes ts) ->
  codec_encode ev place h (Some r) = OK (f, ws) ->
  (forall w, In w ws -> exists j class name t u, w = CW j sigINST (CMismatch (Some u) (Some t) class name)) /\
  (forall class name,
     (exists j t u, In (CW j sigINST (CMismatch (Some u) (Some t) class name)) ws) <->
     mixed_types h (fnodes ts) class name /\
     (place = true \/ hd_error (map rtype (class_values h (fnodes ts) class name)) <> Some TypeUniqueId)).
Proof. intros. eapply warnings_written; eauto. Qed.

(** ** C40: unique ids in models *)
Definition not_unique (a : array) : Prop := match a with ARR t _ => t <> tUniqueId | AOPT _ _ => True end.
Lemma check_prop_unique class name n vs w a : check_prop false class name n vs = OK (w, Some (Some a)) -> not_unique a.
Proof.
  unfold check_prop. destruct vs as [|v vs]; [discriminate|]. destruct (fromValueType (rtype v)) as [t|]; [|discriminate]. cbn [negb andb].
  destruct (tid_eqb t tUniqueId) eqn:Et; [discriminate|]. apply tid_eqb_neq in Et.
  destruct (match v with ROptional ty _ => match fromValueType ty with Some u => Some (Some u) | None => None end | _ => Some None end) as [o|]; [|discriminate].
  destruct (check_rest t o class name vs) as [[? []]|]; try discriminate. intros [= <- <-]. destruct o; [exact I|].
  destruct t; cbn; try discriminate; try exact I; congruence.
Qed.
Lemma arr_set_unique a i v a' : arr_set a i v = OK a' -> not_unique a -> not_unique a'.
Proof.
  destruct a as [t vs|[a|] ps]; cbn [arr_set].
  - destruct v as [v|]; [|discriminate]. destruct (tid_eqb (vtype v) t && (i <? length vs)); [|discriminate]. intros [= <-]. auto.
  - destruct (arr_set a i _); try discriminate. cbn [obind]. destruct (i <? length ps); [|discriminate]. intros [= <-] _. exact I.
  - discriminate.
Qed.
Lemma enc_value_unique ev l name i x a sh a' sh' : enc_value ev l name i x (a, sh) = OK (a', sh') -> not_unique a -> not_unique a'.
Proof.
  unfold enc_value. intros H.
  destruct (mfind (i_props x) name) as [[]|];
    try (destruct (share ev _ sh) as [? ?]);
    apply bind_OK in H; destruct H as (a1 & E & H); apply OK_pair in H; destruct H as [<- _]; exact (arr_set_unique _ _ _ _ E).
Qed.
Lemma enc_values_unique ev l name insts : forall i a sh a' sh', enc_values ev l name i insts (a, sh) = OK (a', sh') -> not_unique a -> not_unique a'.
Proof.
  induction insts as [|x insts IH]; intros i a sh a' sh' H Hn; cbn [enc_values] in H.
  - apply OK_pair in H. destruct H as [<- _]. exact Hn.
  - apply bind_OK in H. destruct H as ([a1 sh1] & E & H). apply (IH _ _ _ _ _ H). exact (enc_value_unique _ _ _ _ _ _ _ _ _ E Hn).
Qed.
Definition columns_ok (cs : list chunk) : Prop :=
  Forall (fun c => exists id name a, ch_payload c = PProp id name (Some a) /\ not_unique a) cs.
Definition starts_ok (ps : list (bytes * option array)) : Prop := forall name a, In (name, Some a) ps -> not_unique a.
Lemma enc_props_unique ev l id insts ps : forall sh cs sh', starts_ok ps -> enc_props ev l id insts ps sh = OK (cs, sh') -> columns_ok cs.
Proof.
  induction ps as [|[name [a|]] ps IH]; intros sh cs sh' Hs H; cbn [enc_props] in H.
  - apply OK_pair in H. destruct H as [<- _]. constructor.
  - apply bind_OK in H. destruct H as ([a1 sh1] & E & H). apply bind_OK in H. destruct H as ([cs1 sh2] & E2 & H). apply OK_pair in H. destruct H as [<- _].
    constructor; [|apply (IH _ _ _ (fun n b Hin => Hs n b (or_intror Hin)) E2)].
    exists id, name, a1. split; [reflexivity|]. apply (enc_values_unique _ _ _ _ _ _ _ _ _ E). apply (Hs name). now left.
  - destruct insts; [|discriminate]. apply (IH _ _ _ (fun n b Hin => Hs n b (or_intror Hin)) H).
Qed.
Lemma check_props_unique class insts ns : forall ws ps, check_props false class insts ns = OK (ws, ps) -> starts_ok ps.
Proof.
  induction ns as [|n ns IH]; intros ws ps H; cbn [check_props] in H.
  - apply OK_pair in H. destruct H as [_ ->]. intros ? ? [].
  - apply bind_OK in H. destruct H as ([w a] & E & H). apply bind_OK in H. destruct H as ([ws1 r] & E2 & H). apply OK_pair in H. destruct H as [_ ->].
    specialize (IH _ _ E2). destruct a as [a|]; [|exact IH]. intros name b [[= -> ->]|Hin]; [|exact (IH _ _ Hin)]. exact (check_prop_unique _ _ _ _ _ _ E).
Qed.
Lemma enc_classes_unique ev h l gs : forall i sh ws is ps sh', enc_classes ev false h l i gs sh = OK (ws, is, ps, sh') ->
  columns_ok ps /\ Forall (fun c => exists id cl ids s fl, ch_payload c = PInst id cl ids s fl) is.
Proof.
  induction gs as [|[c g] gs IH]; intros i sh ws is ps sh' H; cbn [enc_classes] in H.
  - apply OK_pair in H. destruct H as [H _]. injection H as _ <- <-. split; constructor.
  - apply bind_OK in H. destruct H as (insts & _ & H). apply bind_OK in H. destruct H as ([w1 p1] & E1 & H).
    apply bind_OK in H. destruct H as ([cs sh1] & E2 & H). apply bind_OK in H. destruct H as ([[[w2 i2] c2] sh2] & E3 & H).
    apply OK_pair in H. destruct H as [H _]. injection H as _ <- <-. destruct (IH _ _ _ _ _ _ E3) as [IH1 IH2]. split.
    + apply Forall_app. split; [|exact IH1]. refine (enc_props_unique _ _ _ _ _ _ _ _ _ E2).
      pose proof (check_props_unique _ _ _ _ _ E1) as Hs. intros n a Hin. apply (Hs n a). eapply Permutation_in; [symmetry; apply sort_perm|exact Hin].
    + constructor; [|exact IH2]. cbn. eauto 7.
Qed.
(** C40: in a model no property has an array of unique ids, for any heap and
    root. *)
Theorem C40_no_unique_ids : forall ev h r f ws,
  codec_encode ev false h r = OK (f, ws) ->
  forall id name vs, ~ In (id, name, Some (ARR tUniqueId vs)) (columns_in (fm_chunks f)).
Proof.
  intros ev h r f ws H id name vs Hin. unfold codec_encode in H. destruct r as [r|]; [|discriminate].
  apply bind_OK in H. destruct H as (l & _ & H). apply bind_OK in H. destruct H as (gs & _ & H). cbn zeta in H.
  apply bind_OK in H. destruct H as ([[[ws1 is] ps] sh] & E & H). apply bind_OK in H. destruct H as (links & _ & H).
  apply OK_pair in H. destruct H as [<- _]. cbn [fm_chunks] in Hin. apply enc_classes_unique in E. destruct E as [E1 E2].
  unfold columns_in in Hin. rewrite !flat_map_app in Hin. cbn [flat_map ch_payload] in Hin. rewrite !in_app_iff in Hin.
  destruct Hin as [Hin|[Hin|[Hin|[Hin|Hin]]]].
  - destruct (r_metadata r); [destruct Hin|]. cbn in Hin. destruct Hin.
  - destruct sh; [destruct Hin|]. cbn in Hin. destruct Hin.
  - apply in_flat_map in Hin. destruct Hin as (c & Hc & Hin). rewrite Forall_forall in E2. destruct (E2 c Hc) as (? & ? & ? & ? & ? & Ec).
    rewrite Ec in Hin. destruct Hin.
  - apply in_flat_map in Hin. destruct Hin as (c & Hc & Hin). unfold columns_ok in E1. rewrite Forall_forall in E1. destruct (E1 c Hc) as (? & ? & a & Ec & Ha).
    rewrite Ec in Hin. destruct Hin as [[= _ _ ->]|[]]. now apply Ha.
  - cbn in Hin. tauto.
Qed.
