(** RbxlCodecOut.v - the chunks Encode of the codec produces. *)
From Coq Require Import Permutation Sorting.Sorted.
From Verif Require Import Base RbxlValues RbxlArrays RbxlModel RbxlFile RbxlFileProofs RbxValues Tree RbxlCodec
  SpecValues SpecArrays SpecModel SpecFile SpecTree SpecCodec TreeProofs SortProofs PropCodecValues RbxlCodecEnc RbxlCodecCols.

Lemma add_name_spec names n : NoDup names -> NoDup (add_name names n) /\ forall m, In m (add_name names n) <-> In m names \/ m = n.
Proof.
  intros H. unfold add_name. destruct (existsb (bytes_eqb n) names) eqn:E.
  - split; [exact H|]. intros m. split; [auto|]. intros [Hm| ->]; [exact Hm|].
    apply existsb_exists in E. destruct E as (x & Hx & Ex). destruct (beqb_spec n x); [subst; exact Hx|discriminate].
  - assert (Hn : ~ In n names).
    { intros Hn. assert (existsb (bytes_eqb n) names = true) by (apply existsb_exists; exists n; split; [exact Hn|]; destruct (beqb_spec n n); congruence). congruence. }
    split.
    + apply (Permutation_NoDup (l := n :: names)); [apply Permutation_cons_append|]. now constructor.
    + intros m. rewrite in_app_iff. cbn. intuition.
Qed.
Lemma add_names_spec ns : forall names, NoDup names ->
  NoDup (fold_left add_name ns names) /\ forall m, In m (fold_left add_name ns names) <-> In m names \/ In m ns.
Proof.
  induction ns as [|n ns IH]; intros names H; cbn [fold_left]; [split; [exact H|]; intros m; cbn; tauto|].
  destruct (add_name_spec names n H) as [H1 H2]. destruct (IH _ H1) as [H3 H4]. split; [exact H3|].
  intros m. rewrite H4, H2. cbn. intuition.
Qed.
Lemma class_names_spec xs : NoDup (class_names xs) /\
  forall m, In m (class_names xs) <-> exists x, In x xs /\ In m (map fst (i_props x)).
Proof.
  unfold class_names.
  enough (E : forall names, NoDup names ->
    NoDup (fold_left (fun names i => fold_left add_name (map fst (i_props i)) names) xs names) /\
    forall m, In m (fold_left (fun names i => fold_left add_name (map fst (i_props i)) names) xs names)
      <-> In m names \/ exists x, In x xs /\ In m (map fst (i_props x))).
  { destruct (E [] (NoDup_nil _)) as [H1 H2]. split; [exact H1|]. intros m. rewrite H2. cbn. intuition. }
  induction xs as [|x xs IH]; intros names H; cbn [fold_left].
  - split; [exact H|]. intros m. split; [auto|]. intros [Hm|(x & [] & _)]. exact Hm.
  - destruct (add_names_spec (map fst (i_props x)) names H) as [H1 H2]. destruct (IH _ H1) as [H3 H4].
    split; [exact H3|]. intros m. rewrite H4, H2. split.
    + intros [[Hm|Hm]|(y & Hy & Hm)]; [now left|right; exists x; split; [now left|exact Hm]|right; exists y; split; [now right|exact Hm]].
    + intros [Hm|(y & [<-|Hy] & Hm)]; [auto|auto|]. right. eauto.
Qed.
Lemma prop_values_In ms name v : In v (prop_values ms name) <-> exists x, In x ms /\ mfind (i_props x) name = Some v.
Proof.
  unfold prop_values. rewrite in_flat_map. split.
  - intros (x & Hx & Hv). exists x. split; [exact Hx|]. destruct (mfind (i_props x) name); [|easy]. destruct Hv as [->|[]]. reflexivity.
  - intros (x & Hx & Hv). exists x. split; [exact Hx|]. rewrite Hv. now left.
Qed.
Lemma prop_values_nonempty ms name : In name (class_names ms) <-> prop_values ms name <> [].
Proof.
  rewrite (proj2 (class_names_spec ms)). split.
  - intros (x & Hx & Hn) E. apply mfind_key in Hn. destruct Hn as [v Hv].
    assert (H : In v (prop_values ms name)) by (apply prop_values_In; eauto). now rewrite E in H.
  - destruct (prop_values ms name) as [|v vs] eqn:E; [easy|]. intros _.
    assert (H : In v (prop_values ms name)) by (rewrite E; now left). apply prop_values_In in H.
    destruct H as (x & Hx & Hv). exists x. split; [exact Hx|]. apply mfind_key. eauto.
Qed.

(** ** The columns of a class *)
Definition kept_col (place : bool) (ms : list inst) (name : bytes) (ct : ctype) : Prop :=
  prop_values ms name <> [] /\ Forall (is_col ct) (prop_values ms name) /\ (place = true \/ ct <> CPlain tUniqueId).
Definition warned (place : bool) (ms : list inst) (name : bytes) (t u : tid) : Prop :=
  mixed t u (prop_values ms name) /\ (place = true \/ t <> tUniqueId).
Lemma is_col_fun ct ct' v : is_col ct v -> is_col ct' v -> ct = ct'.
Proof.
  destruct ct, ct'; cbn.
  - intros [H _] [H' _]. congruence.
  - intros [H Hn] (ty & o & -> & _). cbn in H. congruence.
  - intros (ty & o & -> & _) [H Hn]. cbn in H. congruence.
  - intros (ty & o & -> & H & _) (ty' & o' & [= <- <-] & H' & _). congruence.
Qed.
Lemma kept_col_fun place ms name ct ct' : kept_col place ms name ct -> kept_col place ms name ct' -> ct = ct'.
Proof.
  intros (Hn & Hf & _) (_ & Hf' & _). destruct (prop_values ms name); [easy|].
  eapply is_col_fun; [eapply Forall_inv; exact Hf|eapply Forall_inv; exact Hf'].
Qed.
Lemma is_col_vt ct v : is_col ct v -> vt v = Some (match ct with CPlain t => t | COpt _ => tOptional end).
Proof. destruct ct; cbn; [intros [H _]; exact H|]. intros (ty & o & -> & _). reflexivity. Qed.
Lemma mixed_not_col t u vs ct : mixed t u vs -> Forall (is_col ct) vs -> False.
Proof.
  intros H Hf. inversion H as [v xs w ys Hv _ Hw Hne]; subst. rewrite Forall_forall in Hf.
  assert (H1 := is_col_vt _ _ (Hf v (or_introl eq_refl))).
  assert (H2 : vt w = Some (match ct with CPlain t => t | COpt _ => tOptional end)).
  { apply is_col_vt, Hf. right. apply in_or_app. right. now left. }
  congruence.
Qed.
Lemma mixed_fun t u t' u' vs : mixed t u vs -> mixed t' u' vs -> t = t' /\ u = u'.
Proof.
  intros H H'. destruct H as [v xs w ys Hv Hx Hw Hne]. remember (v :: xs ++ w :: ys) as L eqn:EL.
  destruct H' as [v' xs' w' ys' Hv' Hx' Hw' Hne']. injection EL as -> E.
  assert (t' = t) as -> by congruence. split; [reflexivity|]. clear Hv Hv'.
  revert xs' E Hx'. induction xs as [|x xs IH]; intros [|x' xs'] E Hx'; cbn in E.
  - injection E as -> _. congruence.
  - injection E as -> _. apply Forall_inv in Hx'. congruence.
  - injection E as -> _. apply Forall_inv in Hx. congruence.
  - injection E as -> E. inversion Hx; inversion Hx'; subst. eauto.
Qed.

Lemma check_props_spec place class ms : (forall name, opts_agree (prop_values ms name)) -> forall names,
  (forall name, In name names -> prop_values ms name <> []) ->
  exists ws cols, check_props place class ms names =
      OK (ws, map (fun e => (fst e, Some (init (snd e) (length ms)))) cols) /\
    (forall name ct, In (name, ct) cols <-> In name names /\ kept_col place ms name ct) /\
    (NoDup names -> NoDup (map fst cols)) /\ incl (map fst cols) names /\
    (forall w, In w ws <-> exists name t u, In name names /\ w = CMismatch (Some u) (Some t) class name /\ warned place ms name t u).
Proof.
  intros Ho. induction names as [|name names IH]; intros Hne; cbn [check_props].
  - exists [], []. split; [reflexivity|]. split; [|split; [constructor|split; [apply incl_refl|]]].
    + intros name ct. cbn. intuition.
    + intros w. cbn. split; [easy|]. intros (name & t & u & [] & _).
  - destruct IH as (ws & cols & E & Hc & Hnd & Hincl & Hw); [intros; apply Hne; now right|]. rewrite E.
    assert (Hv : prop_values ms name <> []) by (apply Hne; now left).
    destruct (check_prop_spec place class name (length ms) _ Hv (Ho name))
      as [(ct & -> & Hcol & Hp)|[(-> & Hp & v & vs & Ev & Hu)|(t & u & -> & Hm & Hp)]]; cbn [obind].
    + exists ws, ((name, ct) :: cols). split; [reflexivity|]. split; [|split; [|split]].
      * intros n c. cbn [In]. rewrite Hc. split.
        -- intros [[= <- <-]|[H1 H2]]; [|auto]. split; [now left|]. repeat split; auto.
        -- intros [[<-|Hi] Hk]; [|auto]. left. f_equal. eapply kept_col_fun; [|exact Hk]. repeat split; auto.
      * intros Hn. inversion Hn as [|? ? Hn1 Hn2]; subst. cbn [map fst]. constructor; [|auto].
        intros Hin. apply Hn1. now apply Hincl.
      * cbn [map fst]. intros x [<-|Hx]; [now left|right; auto].
      * intros w. rewrite Hw. split.
        -- intros (n & t & u & H1 & H2 & H3). exists n, t, u. split; [now right|auto].
        -- intros (n & t & u & [<-|H1] & H2 & H3); [|eauto 7]. exfalso. destruct H3 as [H3 _]. eapply mixed_not_col; eauto.
    + exists ws, cols. split; [reflexivity|]. split; [|split; [|split]].
      * intros n c. rewrite Hc. split; [intros [H1 H2]; split; [now right|exact H2]|].
        intros [[<-|Hi] Hk]; [|auto]. exfalso. destruct Hk as (_ & Hk & Hk'). rewrite Ev in Hk. apply Forall_inv in Hk.
        apply is_col_vt in Hk as Hk2. rewrite Hu in Hk2. injection Hk2 as Hk2. destruct c as [t|]; [|discriminate]. subst t.
        destruct Hk' as [Hk'|Hk']; congruence.
      * intros Hn. inversion Hn; auto.
      * intros x Hx. right. auto.
      * intros w. rewrite Hw. split.
        -- intros (n & t & u & H1 & H2 & H3). exists n, t, u. split; [now right|auto].
        -- intros (n & t & u & [<-|H1] & H2 & H3); [|eauto 7]. exfalso. destruct H3 as [H3 H4].
           inversion H3 as [v0 xs w0 ys Hv0 _ _ _ E0]. rewrite Ev in E0. injection E0 as -> _. destruct H4; congruence.
    + exists (CMismatch (Some u) (Some t) class name :: ws), cols. split; [reflexivity|]. split; [|split; [|split]].
      * intros n c. rewrite Hc. split; [intros [H1 H2]; split; [now right|exact H2]|].
        intros [[<-|Hi] Hk]; [|auto]. exfalso. destruct Hk as (_ & Hk & _). eapply mixed_not_col; eauto.
      * intros Hn. inversion Hn; auto.
      * intros x Hx. right. auto.
      * intros w. cbn [In]. rewrite Hw. split.
        -- intros [<-|(n & t' & u' & H1 & H2 & H3)].
           ++ exists name, t, u. split; [now left|]. split; [reflexivity|]. split; auto.
           ++ exists n, t', u'. split; [now right|auto].
        -- intros (n & t' & u' & [<-|H1] & H2 & H3); [|right; eauto 7]. left.
           destruct H3 as [H3 _]. destruct (mixed_fun _ _ _ _ _ Hm H3) as [<- <-]. now subst.
Qed.

Section Out.
  Variables (ev : env) (S : list bytes).
  Hypothesis Hinj : forall s s', In s S -> In s' S -> ev_hash ev s = ev_hash ev s' -> s = s'.
  Hypothesis Hlen : (N.of_nat (length S) < 2 ^ 32)%N.
  Hypothesis Hnames : forall l, Permutation l (ev_names ev l).
  Variable l : list ptr.

  Definition pchunk (cid : Z) (na : bytes * array) : chunk := Chunk true (PProp cid (fst na) (Some (snd na))).
  Lemma enc_props_spec cid ms : Forall (inst_ok S) ms -> forall cols sh,
    Forall (fun e => prop_values ms (fst e) <> [] /\ Forall (is_col (snd e)) (prop_values ms (fst e))) cols ->
    shared_ok ev S sh ->
    exists arrs new, enc_props ev l cid ms (map (fun e => (fst e, Some (init (snd e) (length ms)))) cols) sh
        = OK (map (pchunk cid) arrs, sh ++ new) /\ shared_ok ev S (sh ++ new) /\
      Forall2 (fun e na => fst na = fst e /\ col_result ev l (fst e) (sh ++ new) ms (snd e) (snd na)) cols arrs.
  Proof.
    intros Hms. induction cols as [|[name ct] cols IH]; intros sh Hc Hok; cbn [map enc_props].
    - exists [], []. rewrite app_nil_r. split; [reflexivity|]. split; [exact Hok|constructor].
    - inversion Hc as [|? ? [Hne Hcol] Hc']; subst. cbn [fst snd] in *.
      destruct (enc_values_spec ev S Hinj Hlen l ct name ms sh Hms Hne Hcol Hok) as (a & new & -> & Hok' & Hr). cbn [obind].
      destruct (IH (sh ++ new) Hc' Hok') as (arrs & new' & E & Hok'' & Hf). rewrite E. cbn [obind].
      exists ((name, a) :: arrs), (new ++ new'). rewrite app_assoc. split; [reflexivity|]. split; [exact Hok''|].
      constructor; [|exact Hf]. cbn. split; [reflexivity|]. now apply col_mono.
  Qed.

  Variable place : bool.
  Variable h : heap.
  Variable xs : list inst.
  Hypothesis Hholds : holds h l xs.
  Hypothesis Hxs : Forall (inst_ok S) xs.
  Hypothesis Hopts : forall c name, opts_agree (prop_values (map snd (mem xs c)) name).
  Definition members (c : bytes) : list inst := map snd (mem xs c).
  Lemma members_In c x : In x (members c) <-> In x xs /\ i_class x = c.
  Proof.
    unfold members. rewrite in_map_iff. split.
    - intros ([k y] & <- & H). apply mem_In in H. destruct H as [H Hc]. split; [eapply nth_error_In; eauto|exact Hc].
    - intros [H Hc]. apply In_nth_error in H. destruct H as [k Hk]. exists (k, x). split; [reflexivity|]. now apply mem_In.
  Qed.
  Lemma members_ok c : Forall (inst_ok S) (members c).
  Proof. apply Forall_forall. intros x Hx. apply members_In in Hx. rewrite Forall_forall in Hxs. now apply Hxs. Qed.

  Definition entry := (nat * bytes * array)%type.
  Definition e_id (e : entry) : nat := fst (fst e).
  Definition e_name (e : entry) : bytes := snd (fst e).
  Definition e_arr (e : entry) : array := snd e.
  Definition entry_lt (a b : entry) : Prop :=
    e_id a < e_id b \/ e_id a = e_id b /\ bytes_ltb (e_name a) (e_name b) = true.
  Definition echunk (e : entry) : chunk := Chunk true (PProp (Z.of_nat (e_id e)) (e_name e) (Some (e_arr e))).
  Definition ichunk (ic : nat * bytes) : chunk :=
    let g := grp place (mem xs (snd ic)) in
    Chunk true (PInst (Z.of_nat (fst ic)) (snd ic) (g_ids g) (g_service g) (g_flags g)).
  Lemma prop_order cols (n : nat) : NoDup (map fst cols) ->
    sort_by fst (map (fun e : bytes * ctype => (fst e, Some (init (snd e) n))) cols) =
    map (fun e => (fst e, Some (init (snd e) n))) (sort_by fst cols).
  Proof.
    intros Hn. symmetry. apply (sorted_unique fst).
    - etransitivity; [apply Permutation_map; symmetry; apply sort_perm|]. apply sort_perm.
    - apply sorted_map. cbn. now apply sort_sorted.
    - apply sort_sorted. rewrite map_map. cbn. exact Hn.
  Qed.
  Lemma enc_classes_spec : forall cs i sh, shared_ok ev S sh -> (Z.of_nat (i + length cs) <= 2 ^ 31)%Z ->
    exists ws entries new,
      enc_classes ev place h l i (map (fun c => (c, grp place (mem xs c))) cs) sh
        = OK (ws, map ichunk (enum i cs), map echunk entries, sh ++ new) /\
      shared_ok ev S (sh ++ new) /\ StronglySorted entry_lt entries /\
      (forall j name a, In (j, name, a) entries -> exists c ct, In (j, c) (enum i cs) /\
         kept_col place (members c) name ct /\ col_result ev l name (sh ++ new) (members c) ct a) /\
      (forall j c name ct, In (j, c) (enum i cs) -> kept_col place (members c) name ct -> exists a, In (j, name, a) entries) /\
      (forall w, In w ws <-> exists j c name t u, In (j, c) (enum i cs) /\
         w = CW j sigINST (CMismatch (Some u) (Some t) c name) /\ warned place (members c) name t u).
  Proof.
    induction cs as [|c cs IH]; intros i sh Hok Hb; cbn [map enc_classes].
    - exists [], [], []. rewrite app_nil_r. split; [reflexivity|]. split; [exact Hok|]. split; [constructor|].
      split; [|split].
      + intros j name a [].
      + intros j c name ct [].
      + intros w. cbn. split; [easy|]. intros (j & c & name & t & u & [] & _).
    - cbn [length] in Hb. rewrite wrap_small by lia. cbn [grp g_ids g_service g_flags].
      rewrite (mem_get_insts h l xs c Hholds). cbn [obind]. fold (members c).
      pose proof (class_names_spec (members c)) as [Hcn1 Hcn2].
      destruct (check_props_spec place c (members c) (Hopts c) (ev_names ev (class_names (members c))))
        as (ws & cols & E & Hc & Hnd & _ & Hw).
      { intros name Hin. apply prop_values_nonempty. eapply Permutation_in; [symmetry; apply Hnames|exact Hin]. }
      assert (Hall : forall name, In name (ev_names ev (class_names (members c))) <-> prop_values (members c) name <> []).
      { intros name. rewrite <- prop_values_nonempty. split; apply Permutation_in; [symmetry|]; apply Hnames. }
      assert (Hnd' : NoDup (map fst cols)) by (apply Hnd; eapply Permutation_NoDup; [apply Hnames|exact Hcn1]).
      rewrite E. cbn [obind]. rewrite prop_order by exact Hnd'.
      pose proof (sort_perm fst cols) as Hsp. pose proof (sort_sorted fst cols Hnd') as Hss.
      set (sc := sort_by fst cols) in *.
      assert (Hc' : forall name ct, In (name, ct) sc <-> kept_col place (members c) name ct).
      { intros name ct. transitivity (In (name, ct) cols).
        - split; apply Permutation_in; [symmetry|]; exact Hsp.
        - rewrite Hc, Hall. unfold kept_col. intuition. }
      destruct (enc_props_spec (Z.of_nat i) (members c) (members_ok c) sc sh) as (arrs & new & -> & Hok' & Hf); [|exact Hok|].
      { apply Forall_forall. intros [name ct] Hin. apply Hc' in Hin. destruct Hin as (H1 & H2 & _). auto. }
      cbn [obind].
      destruct (IH (Datatypes.S i) (sh ++ new) Hok') as (ws2 & entries & new2 & -> & Hok'' & Hs2 & Hin2 & Hk2 & Hw2); [lia|]. cbn [obind].
      exists (map (CW i sigINST) ws ++ ws2), (map (fun na => (i, fst na, snd na)) arrs ++ entries), (new ++ new2).
      assert (Harr : forall name a, In (name, a) arrs -> exists ct, In (name, ct) sc /\ col_result ev l name (sh ++ new) (members c) ct a).
      { clear -Hf. induction Hf as [|[n ct] [m b] sc arrs [H1 H2] Hf IH]; intros name a [].
        - injection H as E1 E2. cbn [fst snd] in *. subst m b n. exists ct. split; [now left|exact H2].
        - destruct (IH name a H) as (ct' & Hi & Hr). exists ct'. split; [now right|exact Hr]. }
      assert (Hkeys : map fst arrs = map fst sc).
      { clear -Hf. induction Hf as [|? ? ? ? [H1 _] Hf IH]; cbn; [reflexivity|]. congruence. }
      rewrite app_assoc. split; [|split; [exact Hok''|split; [|split; [|split]]]].
      + rewrite map_app, map_map. reflexivity.
      + (* sorted *)
        assert (Hsa : StronglySorted (lt_key fst) arrs).
        { clear -Hss Hkeys. revert arrs Hkeys. induction Hss as [|s sc Hs IH Ha]; intros [|a arrs] Hk; try discriminate; constructor.
          - apply IH. now injection Hk.
          - injection Hk as E Hk. rewrite Forall_forall in *. intros b Hb. unfold lt_key. rewrite E.
            assert (Hin : In (fst b) (map fst sc)) by (rewrite <- Hk; now apply in_map).
            apply in_map_iff in Hin. destruct Hin as (b' & Eb & Hb'). rewrite <- Eb. now apply Ha. }
        clear -Hsa Hs2 Hin2. induction Hsa as [|a arrs Hs IH Ha]; cbn [map app]; [exact Hs2|]. constructor; [exact IH|].
        apply Forall_app. split.
        * rewrite Forall_map. eapply Forall_impl; [|exact Ha]. intros b Hb. right. auto.
        * apply Forall_forall. intros [[j name] b] Hb. destruct (Hin2 _ _ _ Hb) as (c & ct & Hj & _). apply enum_In in Hj.
          left. cbn. lia.
      + intros j name a Hin. apply in_app_or in Hin. rewrite enum_cons. destruct Hin as [Hin|Hin].
        * apply in_map_iff in Hin. destruct Hin as ([n b] & [= <- <- <-] & Hin). destruct (Harr _ _ Hin) as (ct & H1 & H2).
          exists c, ct. split; [now left|]. split; [now apply Hc'|]. now apply col_mono.
        * destruct (Hin2 _ _ _ Hin) as (c' & ct & H1 & H2 & H3). exists c', ct. split; [now right|]. auto.
      + intros j c' name ct Hin Hk. rewrite enum_cons in Hin. destruct Hin as [[= <- <-]|Hin].
        * apply Hc' in Hk. assert (Hn : In name (map fst arrs)) by (rewrite Hkeys; apply in_map_iff; exists (name, ct); auto).
          apply in_map_iff in Hn. destruct Hn as ([n a] & <- & Hn). exists a. apply in_or_app. left. apply in_map_iff. exists (n, a). auto.
        * destruct (Hk2 _ _ _ _ Hin Hk) as [a Ha]. exists a. apply in_or_app. now right.
      + intros w. rewrite in_app_iff, in_map_iff, Hw2, enum_cons. split.
        * intros [(k & <- & Hk)|(j & c' & name & t & u & H1 & H2 & H3)].
          -- apply Hw in Hk. destruct Hk as (name & t & u & H1 & -> & H3). exists i, c, name, t, u. split; [now left|auto].
          -- exists j, c', name, t, u. split; [now right|auto].
        * intros (j & c' & name & t & u & [[= <- <-]|H1] & -> & H3); [left|right; eauto 9].
          exists (CMismatch (Some u) (Some t) c name). split; [reflexivity|]. apply Hw. exists name, t, u. split; [|auto].
          apply Hall. intros E0. destruct H3 as [H3 _]. rewrite E0 in H3. inversion H3.
  Qed.
End Out.
