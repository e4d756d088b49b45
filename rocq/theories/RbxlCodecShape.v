(** RbxlCodecShape.v - the whole output of Encode of the codec. *)
From Coq Require Import Permutation Sorting.Sorted.
From Verif Require Import Base RbxlValues RbxlArrays RbxlModel RbxlFile RbxlFileProofs RbxValues Tree RbxlCodec
  SpecValues SpecArrays SpecModel SpecFile SpecTree SpecCodec TreeProofs SortProofs PropCodecValues RbxlCodecEnc RbxlCodecCols
  RbxlCodecOut.


Lemma holds_exists h l : (forall p, In p l -> exists i, hget h p = Some i) -> exists xs, holds h l xs.
Proof.
  induction l as [|p l IH]; intros H; [exists []; constructor|].
  destruct (H p) as [i Hi]; [now left|]. destruct IH as [xs Hx]; [intros; apply H; now right|].
  exists (i :: xs). now constructor.
Qed.
Lemma holds_inst h l xs x : holds h l xs -> In x xs <-> inst_in h l x.
Proof.
  intros H. split.
  - intros Hi. apply In_nth_error in Hi. destruct Hi as [k Hk]. destruct (holds_nth _ _ _ _ _ H Hk) as (p & Hp & Hx).
    exists p. split; [eapply nth_error_In; eauto|exact Hx].
  - intros (p & Hp & Hx). apply In_nth_error in Hp. destruct Hp as [k Hk].
    destruct (holds_nth_l _ _ _ _ _ H Hk) as (y & Hy & E). assert (y = x) as <- by congruence. eapply nth_error_In; eauto.
Qed.
Lemma holds_length h l xs : holds h l xs -> length xs = length l.
Proof. intros H. induction H; cbn; congruence. Qed.

(** Equal stored types are equal binary types. *)
Lemma stored_type_tid t u : fromValueType t = Some u -> tid_value_type u = stored_type t.
Proof. intros H. unfold stored_type. now apply C24_types. Qed.
Lemma from_not_quat t : fromValueType t <> Some tCFrameQuat.
Proof.
  unfold fromValueType, assocN. repeat match goal with |- (if ?b then _ else _) <> _ => destruct b; [discriminate|] end. discriminate.
Qed.
Lemma stored_type_eq t u t' u' : fromValueType t = Some u -> fromValueType t' = Some u' ->
  stored_type t = stored_type t' <-> u = u'.
Proof.
  intros H H'. rewrite <- (stored_type_tid _ _ H), <- (stored_type_tid _ _ H'). split; [|congruence].
  intros E. pose proof (C24_types_back u) as B. pose proof (C24_types_back u') as B'. rewrite E in B. rewrite B in B'.
  pose proof (from_not_quat t). pose proof (from_not_quat t'). destruct u, u'; congruence.
Qed.
Lemma from_optional t : fromValueType t = Some tOptional -> t = TypeOptional.
Proof.
  unfold fromValueType, assocN.
  repeat match goal with |- (if (?k =? t)%N then _ else _) = _ -> _ => destruct (N.eqb_spec k t); [try discriminate; congruence|] end. discriminate.
Qed.
(** The type of a well-formed optional exists in the file. *)
Lemma wf_optional_from t o : wf_rvalue (ROptional t o) -> exists u, fromValueType t = Some u.
Proof.
  destruct o as [v|]; cbn [wf_rvalue].
  - intros [-> _]. destruct (vt_some v) as [u H]. exists u. exact H.
  - intros [s H]. unfold typeStrings, assocN in H.
    repeat match type of H with
    | (if (?k =? t)%N then _ else _) = _ => destruct (N.eqb_spec k t) as [<-|]; [eexists; reflexivity|]
    end. discriminate.
Qed.
Lemma shared_strings_In h l x name s : inst_in h l x -> mfind (i_props x) name = Some (RSharedString s) -> In s (shared_strings h l).
Proof.
  intros (p & Hp & Hx) Hf. unfold shared_strings. apply in_flat_map. exists p. split; [exact Hp|]. rewrite Hx.
  apply in_flat_map. apply mfind_In in Hf. exists (name, RSharedString s). split; [exact Hf|]. now left.
Qed.

(** ** Metadata: the order is some permutation *)
Lemma meta_insert_perm a r : Permutation (a :: r) (meta_insert a r).
Proof.
  induction r as [|b r IH]; cbn; [reflexivity|]. destruct (meta_less a b); [|reflexivity].
  etransitivity; [apply perm_swap|]. now constructor.
Qed.
Lemma meta_isort_perm l : Permutation l (meta_isort l).
Proof.
  unfold meta_isort. rewrite <- Permutation_rev.
  enough (E : forall r, Permutation (l ++ r) (fold_left (fun r a => meta_insert a r) l r)) by (rewrite <- (E []); now rewrite app_nil_r).
  induction l as [|a l IH]; intros r; cbn [fold_left app]; [reflexivity|].
  rewrite <- IH. etransitivity; [apply Permutation_middle|]. apply Permutation_app_head, meta_insert_perm.
Qed.
Lemma meta_sort_perm ev l : orders_ok ev -> Permutation l (meta_sort ev (ev_meta ev l)).
Proof.
  intros (_ & _ & Hm & Hs). unfold meta_sort. destruct (_ <=? _)%nat; [rewrite <- meta_isort_perm|rewrite <- Hs]; apply Hm.
Qed.

Section Shape.
  Variables (ev : env) (place : bool) (h : heap) (r : root) (ts : list rtree) (xs : list inst).
  Let nodes := fnodes ts.
  Hypothesis Hev : orders_ok ev.
  Hypothesis Hforest : forest_at h ts.
  Hypothesis Hroot : r_instances r = map rroot ts.
  Hypothesis Hst : storable h nodes.
  Hypothesis Hcol : no_collision (ev_hash ev) h nodes.
  Hypothesis Hholds : holds h nodes xs.

  Lemma shape_insts : Forall (inst_ok (shared_strings h nodes)) xs.
  Proof.
    apply Forall_forall. intros x Hx. apply (holds_inst _ _ _ _ Hholds) in Hx. split.
    - intros name s Hf. eapply shared_strings_In; eauto.
    - intros name ty v Hf. destruct (st_props _ _ Hst x name _ Hx Hf) as [_ Hw]. now destruct Hw.
  Qed.
  Lemma shape_opts c name : opts_agree (prop_values (map snd (mem xs c)) name).
  Proof.
    destruct (existsb (fun v => match v with ROptional _ _ => true | _ => false end) (prop_values (map snd (mem xs c)) name)) eqn:E.
    - apply existsb_exists in E. destruct E as (v & Hv & Ev). destruct v as [| | | | | | | | | | | | | | | | | | | | | | | | | | | | | |t o| |]; try discriminate.
      apply prop_values_In in Hv. destruct Hv as (x & Hx & Hf). fold (members xs c) in Hx. apply members_In in Hx. destruct Hx as [Hx Hc].
      apply (holds_inst _ _ _ _ Hholds) in Hx. destruct (st_props _ _ Hst x name _ Hx Hf) as [_ Hw].
      destruct (wf_optional_from _ _ Hw) as [u Hu]. exists u. split.
      + intros ->. apply from_optional in Hu. exact (st_inner _ _ Hst x name t o Hx Hf Hu).
      + intros t' o' Hin. apply prop_values_In in Hin. destruct Hin as (y & Hy & Hg). fold (members xs c) in Hy. apply members_In in Hy. destruct Hy as [Hy Hc'].
        apply (holds_inst _ _ _ _ Hholds) in Hy. destruct (st_props _ _ Hst y name _ Hy Hg) as [_ Hw'].
        destruct (wf_optional_from _ _ Hw') as [u' Hu']. rewrite Hu'. f_equal. symmetry.
        apply (stored_type_eq _ _ _ _ Hu Hu'). eapply (st_agree _ _ Hst x y); eauto. congruence.
    - exists tString. split; [discriminate|]. intros ty o Hin. exfalso.
      assert (existsb (fun v => match v with ROptional _ _ => true | _ => false end) (prop_values (map snd (mem xs c)) name) = true)
        by (apply existsb_exists; exists (ROptional ty o); auto). congruence.
  Qed.
  Lemma classes_le cl : classes_of xs cl -> length cl <= length xs.
  Proof.
    intros [Hs Hin]. rewrite <- (map_length i_class xs). apply NoDup_incl_length.
    - apply sorted_nodup in Hs. now rewrite map_id in Hs.
    - intros c Hc. apply Hin in Hc. destruct Hc as (x & Hx & <-). now apply in_map.
  Qed.

  Definition meta_chunks (m : list (bytes * bytes)) : list chunk := match m with [] => [] | _ => [Chunk true (PMeta m)] end.
  Definition sstr_chunks (sh : shareds) : list chunk :=
    match sh with [] => [] | _ => [Chunk true (PSstr 0 (map (fun e => (repeat x00 16, snd e)) sh))] end.
  Definition prnt_payload : payload :=
    PPrnt 0 (map (num nodes) (map fst (flinks 0 ts))) (map (num nodes) (map snd (flinks 0 ts))).
  Definition shape_chunks (m : list (bytes * bytes)) (sh : shareds) (cl : list bytes) (entries : list entry) : list chunk :=
    meta_chunks m ++ sstr_chunks sh ++ map (ichunk place xs) (enum 0 cl) ++ map echunk entries ++
    [Chunk true prnt_payload; Chunk false (PEnd endContent)].
  (** Everything known about the pieces. *)
  Record pieces (m : list (bytes * bytes)) (sh : shareds) (cl : list bytes) (entries : list entry) (ws : list cwarn) : Prop := {
    pc_meta : Permutation (r_metadata r) m;
    pc_shared : shared_ok ev (shared_strings h nodes) sh;
    pc_classes : classes_of xs cl;
    pc_sorted : StronglySorted entry_lt entries;
    pc_entry : forall j name a, In (j, name, a) entries -> exists c ct, nth_error cl j = Some c /\
       kept_col place (members xs c) name ct /\ col_result ev nodes name sh (members xs c) ct a;
    pc_kept : forall j c name ct, nth_error cl j = Some c -> kept_col place (members xs c) name ct -> exists a, In (j, name, a) entries;
    pc_warns : forall w, In w ws <-> exists j c name t u, nth_error cl j = Some c /\
       w = CW j sigINST (CMismatch (Some u) (Some t) c name) /\ warned place (members xs c) name t u }.
  Lemma encode_shape : exists m sh cl entries ws, pieces m sh cl entries ws /\
    codec_encode ev place h (Some r) =
      OK (FModel 0 (N.of_nat (length cl)) (N.of_nat (length nodes)) (shape_chunks m sh cl entries) [] [], ws).
  Proof.
    unfold codec_encode. rewrite Hroot, (numbering h ts Hforest). cbn [obind]. fold nodes.
    pose proof (st_count _ _ Hst) as Hb. pose proof (holds_length _ _ _ Hholds) as Hlen.
    destruct (groups_spec place h nodes xs (ev_classes ev) Hholds) as (gs & cl & Eg & Hcl & Es); [lia|apply Hev|].
    rewrite Eg. cbn [obind]. rewrite Es. clear Eg Es gs.
    pose proof (classes_le cl Hcl) as Hcle.
    destruct (enc_classes_spec ev (shared_strings h nodes) Hcol (st_strings _ _ Hst) (proj1 (proj2 Hev)) nodes place h xs Hholds shape_insts
      shape_opts cl 0 []) as (ws & entries & sh & -> & Hok & Hs & He & Hk & Hw); [split; [easy|constructor]|lia|].
    cbn [obind app]. rewrite map_length.
    assert (Hlinks : (match nodes with [] => OK [] | _ => fold_res (rec_inst (S (S (length h))) h nodes 0) (map rroot ts) [] end)
                     = @OK err _ (map (nlink nodes) (flinks 0 ts))).
    { pose proof (links_spec h ts Hforest) as L. fold nodes in L. rewrite L. destruct nodes as [|p n] eqn:En; [|reflexivity].
      pose proof (Permutation_length (flinks_perm ts 0)) as P. fold nodes in P. rewrite En, map_length in P. cbn in P.
      destruct (flinks 0 ts); [reflexivity|discriminate]. }
    rewrite Hlinks. cbn [obind].
    assert (Hpad : length nodes - length (map (nlink nodes) (flinks 0 ts)) = 0).
    { rewrite map_length, <- (map_length fst (flinks 0 ts)), (Permutation_length (flinks_perm ts 0)). fold nodes. lia. }
    rewrite Hpad. cbn [repeat]. rewrite app_nil_r.
    exists (match r_metadata r with [] => [] | md => meta_sort ev (ev_meta ev md) end), sh, cl, entries, ws. split.
    - constructor; auto.
      + destruct (r_metadata r); [constructor|now apply meta_sort_perm].
      + intros j name a Hin. destruct (He j name a Hin) as (c & ct & Hj & Hr). apply enum_In in Hj. rewrite Nat.sub_0_r in Hj. exists c, ct. tauto.
      + intros j c name ct Hj. apply Hk. apply enum_In. rewrite Nat.sub_0_r. split; [lia|exact Hj].
      + intros w. rewrite Hw. split; intros (j & c & name & t & u & H1 & H2); exists j, c, name, t, u; (split; [|exact H2]).
        * apply enum_In in H1. rewrite Nat.sub_0_r in H1. tauto.
        * apply enum_In. rewrite Nat.sub_0_r. split; [lia|exact H1].
    - rewrite !N.mod_small by lia. f_equal. f_equal. f_equal. unfold shape_chunks. f_equal.
      + unfold meta_chunks. destruct (r_metadata r) as [|kv md] eqn:Em; [reflexivity|].
        destruct (meta_sort ev (ev_meta ev (kv :: md))) eqn:Es; [|reflexivity].
        pose proof (meta_sort_perm ev (kv :: md) Hev) as P. rewrite Es in P. symmetry in P. now apply Permutation_nil_cons in P.
      + unfold prnt_payload. rewrite !map_map. reflexivity.
  Qed.
End Shape.
