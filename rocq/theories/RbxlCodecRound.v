(** RbxlCodecRound.v - Decode of the codec on the output of Encode. *)
From Coq Require Import Permutation Sorting.Sorted.
From Verif Require Import Base RbxlValues RbxlArrays RbxlModel RbxlFile RbxlFileProofs RbxValues Tree RbxlCodec
  SpecValues SpecArrays SpecModel SpecFile SpecTree SpecCodec TreeProofs SortProofs PropCodecValues RbxlCodecEnc RbxlCodecCols
  RbxlCodecOut RbxlCodecShape RbxlCodecDec.

Lemma dec_list_payloads q2m f : forall a b ic s, map ch_payload a = map ch_payload b ->
  dec_chunk_list q2m f ic a s = dec_chunk_list q2m f ic b s.
Proof.
  induction a as [|c a IH]; intros [|d b] ic s H; try discriminate; [reflexivity|]. injection H as H1 H2. cbn [dec_chunk_list].
  rewrite H1. destruct (ch_payload d); try reflexivity; (destruct (dec_chunk _ _ _ _ s); cbn [obind]; [now apply IH|reflexivity|reflexivity|reflexivity]).
Qed.

(** ** The order of the decoded instances *)
Lemma enum_NoDup {A} n (l : list A) : NoDup (map fst (enum n l)).
Proof. rewrite enum_fst. apply seq_NoDup. Qed.
Lemma NoDup_of_map {A B} (f : A -> B) l : NoDup (map f l) -> NoDup l.
Proof. apply NoDup_map_inv. Qed.
Lemma filter_NoDup_map {A B} (f : A -> B) (P : A -> bool) l : NoDup (map f l) -> NoDup (map f (filter P l)).
Proof.
  induction l as [|a l IH]; cbn; intros H; [exact H|]. inversion H as [|? ? Hn Hd]; subst.
  destruct (P a); cbn; [|auto]. constructor; [|auto]. intros Hin. apply Hn. apply in_map_iff in Hin.
  destruct Hin as (b & E & Hb). apply filter_In in Hb. rewrite <- E. now apply in_map.
Qed.
Lemma mem_NoDup xs c : NoDup (map fst (mem xs c)).
Proof. apply filter_NoDup_map, enum_NoDup. Qed.
Definition order (xs : list inst) (cl : list bytes) : list (nat * inst) := flat_map (mem xs) cl.
Lemma order_In xs cl : classes_of xs cl -> forall k x, In (k, x) (order xs cl) <-> nth_error xs k = Some x.
Proof.
  intros [_ Hc] k x. unfold order. rewrite in_flat_map. split.
  - intros (c & _ & H). now apply mem_In in H.
  - intros H. exists (i_class x). split; [|now apply mem_In]. apply Hc. exists x. split; [eapply nth_error_In; eauto|reflexivity].
Qed.
Lemma order_NoDup_any xs cl : NoDup cl -> NoDup (map fst (order xs cl)).
Proof.
  intros Hn. unfold order. induction Hn as [|c cl Hc Hn IH]; cbn [flat_map]; [constructor|]. rewrite map_app.
  assert (D : forall k, In k (map fst (mem xs c)) -> ~ In k (map fst (flat_map (mem xs) cl))).
  { intros k H H'. apply in_map_iff in H. destruct H as ([k1 x] & <- & H). apply in_map_iff in H'. destruct H' as ([k2 y] & E & H').
    cbn in E. subst k2. apply in_flat_map in H'. destruct H' as (c' & Hc' & H'). apply mem_In in H. apply mem_In in H'.
    destruct H as [H Hx], H' as [H' Hy]. assert (y = x) by congruence. subst y. apply Hc. congruence. }
  revert D. generalize (mem_NoDup xs c). generalize (map fst (mem xs c)) as A. intros A HA D.
  induction HA as [|a A Ha HA IHA]; cbn [app]; [exact IH|]. constructor.
  - intros Hin. apply in_app_or in Hin. destruct Hin as [Hin|Hin]; [contradiction|]. apply (D a); [now left|exact Hin].
  - apply IHA. intros k Hk. apply D. now right.
Qed.
Lemma classes_NoDup xs cl : classes_of xs cl -> NoDup cl.
Proof. intros [H _]. apply sorted_nodup in H. now rewrite map_id in H. Qed.
Lemma order_NoDup xs cl : classes_of xs cl -> NoDup (map fst (order xs cl)).
Proof. intros H. apply order_NoDup_any. eapply classes_NoDup; eauto. Qed.
Lemma order_perm xs cl : classes_of xs cl -> Permutation (map fst (order xs cl)) (seq 0 (length xs)).
Proof.
  intros H. apply NoDup_Permutation; [now apply order_NoDup|apply seq_NoDup|]. intros k. rewrite in_map_iff, in_seq. split.
  - intros ([k' x] & <- & Hin). apply (order_In xs cl H) in Hin. split; [lia|]. cbn. apply nth_error_Some. congruence.
  - intros [_ Hk]. destruct (nth_error xs k) as [x|] eqn:E; [|apply nth_error_None in E; lia].
    exists (k, x). split; [reflexivity|]. now apply (order_In xs cl H).
Qed.
Lemma order_length xs cl : classes_of xs cl -> length (order xs cl) = length xs.
Proof. intros H. rewrite <- (map_length fst), (Permutation_length (order_perm xs cl H)). apply seq_length. Qed.

Definition blank (place : bool) (e : nat * inst) : inst := Inst (i_class (snd e)) [] (mflag place e) [] [].
Lemma mk_insts_blank place c ms : (forall e, In e ms -> i_class (snd e) = c) ->
  let g := grp place ms in
  mk_insts c (g_service g) (if g_service g then g_flags g else []) (g_ids g) = map (blank place) ms.
Proof.
  intros Hc. cbn [grp g_service g_flags g_ids]. destruct (existsb (mflag place) ms) eqn:E.
  - clear E. induction ms as [|e ms IH]; [reflexivity|]. cbn [map mids mk_insts hd tl]. f_equal.
    + unfold blank. rewrite (Hc e) by now left. f_equal. now destruct (mflag place e).
    + apply IH. intros e' He'. apply Hc. now right.
  - assert (Hf : forall e, In e ms -> mflag place e = false).
    { intros e He. destruct (mflag place e) eqn:Em; [|reflexivity].
      assert (existsb (mflag place) ms = true) by (apply existsb_exists; eauto). congruence. }
    clear E. induction ms as [|e ms IH]; [reflexivity|]. cbn [map mids mk_insts hd tl andb]. f_equal.
    + unfold blank. rewrite (Hc e), (Hf e) by now left. reflexivity.
    + apply IH; intros e' He'; [apply Hc|apply Hf]; now right.
Qed.

(** ** Group lookup *)
Definition not_inst (c : chunk) : Prop := match ch_payload c with PInst _ _ _ _ _ => False | _ => True end.
Lemma grow_all_app a : forall b g i, grow_all g i (a ++ b) = grow_all (grow_all g i a) (i + length a) b.
Proof.
  induction a as [|c a IH]; intros b g i; cbn [app grow_all length]; [now rewrite Nat.add_0_r|]. rewrite IH. now rewrite Nat.add_succ_r.
Qed.
Lemma grow_all_skip a : Forall not_inst a -> forall g i, grow_all g i a = g.
Proof.
  induction 1 as [|c a Hc Ha IH]; intros g i; cbn [grow_all]; [reflexivity|]. rewrite IH.
  unfold not_inst in Hc. unfold grow. destruct (ch_payload c); try reflexivity. contradiction.
Qed.
Lemma grow_all_other place xs k : forall cs n g i, (k < n \/ n + length cs <= k) ->
  group_get (grow_all g i (map (ichunk place xs) (enum n cs))) (Z.of_nat k) = group_get g (Z.of_nat k).
Proof.
  induction cs as [|c cs IH]; intros n g i H; [reflexivity|]. rewrite enum_cons. cbn [map grow_all length] in *. rewrite IH by lia.
  cbn [ichunk ch_payload grow fst snd group_set group_get]. destruct (Z.eqb_spec (Z.of_nat n) (Z.of_nat k)); [lia|reflexivity].
Qed.
Lemma grow_all_insts place xs : forall cs n g i j c, In (j, c) (enum n cs) ->
  group_get (grow_all g i (map (ichunk place xs) (enum n cs))) (Z.of_nat j) = Some (i + (j - n), mids (mem xs c)).
Proof.
  induction cs as [|c0 cs IH]; intros n g i j c H; [easy|]. rewrite enum_cons in *. cbn [map grow_all].
  destruct H as [[= <- <-]|H].
  - rewrite grow_all_other by lia. cbn [ichunk ch_payload grow fst snd group_set group_get]. rewrite Z.eqb_refl.
    now rewrite Nat.sub_diag, Nat.add_0_r.
  - rewrite (IH _ _ _ _ c H). apply enum_In in H. f_equal. f_equal. lia.
Qed.

Section Decode.
  Variables (q2m : quat) (place : bool) (xs : list inst) (cl : list bytes) (f : fmodel).
  Hypothesis Hcl : classes_of xs cl.
  Hypothesis Hcc : fm_classCount f = N.of_nat (length cl).
  Hypothesis Hic : fm_instCount f = N.of_nat (length xs).
  Variable off : nat.
  Hypothesis Hgrp : forall j c, nth_error cl j = Some c -> group_get (fm_groups f) (Z.of_nat j) = Some (off + j, mids (mem xs c)).

  Definition stored_ichunk (ic : nat * bytes) : chunk := stored_chunk (ichunk place xs ic).
  Lemma in_bounds k : k < length xs -> out_of_bounds (Z.of_nat k) (N.of_nat (length xs)) = false.
  Proof.
    intros H. unfold out_of_bounds. destruct (Z.ltb_spec (Z.of_nat k) 0); [lia|]. cbn. apply N.leb_gt. lia.
  Qed.
  Lemma in_bounds_class k : k < length cl -> out_of_bounds (Z.of_nat k) (fm_classCount f) = false.
  Proof.
    intros H. rewrite Hcc. unfold out_of_bounds. destruct (Z.ltb_spec (Z.of_nat k) 0); [lia|]. cbn. apply N.leb_gt. lia.
  Qed.
  Lemma inst_phase : forall cs cs0 s, cl = cs0 ++ cs ->
    lookup_ok (k_look s) (mids (order xs cs0)) -> k_heap s = map (blank place) (order xs cs0) ->
    exists lk, dec_chunk_list q2m f (off + length cs0) (map stored_ichunk (enum (length cs0) cs)) s
      = OK (Dcs (map (blank place) (order xs cl)) lk (k_root s) (k_meta s) (k_shared s) (k_warns s)) /\
      lookup_ok lk (mids (order xs cl)).
  Proof.
    induction cs as [|c cs IH]; intros cs0 s Ecl Hl Hh.
    - rewrite app_nil_r in Ecl. subst cs0. exists (k_look s). cbn. rewrite <- Hh. split; [now destruct s|exact Hl].
    - rewrite enum_cons. cbn [map dec_chunk_list]. cbn [stored_ichunk stored_chunk ichunk ch_payload stored_payload fst snd].
      cbn [dec_chunk].
      assert (Hj : nth_error cl (length cs0) = Some c) by (rewrite Ecl, nth_error_app2, Nat.sub_diag by lia; reflexivity).
      assert (Hn : NoDup (map fst (order xs cl))) by now apply order_NoDup.
      rewrite in_bounds_class by (apply nth_error_Some; congruence).
      set (g := grp place (mem xs c)).
      match goal with |- context [if ?b then cfail _ _ _ _ else _] => assert (b = false) as -> end.
      { destruct (g_service g); [|reflexivity]. cbn. unfold mids. now rewrite !map_length, Nat.eqb_refl. }
      assert (Eo : order xs cl = order xs cs0 ++ mem xs c ++ order xs cs).
      { rewrite Ecl. unfold order. now rewrite flat_map_app. }
      destruct (dec_insts_spec (fm_instCount f) c (g_service g) (g_ids g) (if g_service g then g_flags g else []) (k_heap s) (k_look s) _ Hl)
        as (lk & E & Hl').
      { rewrite Hh. unfold mids. now rewrite !map_length. }
      { cbn [g g_ids grp]. unfold mids. rewrite <- map_app. rewrite app_assoc in Eo.
        apply (NoDup_map_inv Z.to_nat). rewrite map_map. erewrite map_ext; [|intros e; apply Nat2Z.id].
        eapply NoDup_app_l. rewrite <- map_app, <- Eo. exact Hn. }
      { cbn [g g_ids grp]. unfold mids. rewrite Forall_map. apply Forall_forall. intros [k x] Hin. apply mem_In in Hin.
        rewrite Hic. apply in_bounds. apply nth_error_Some. cbn. destruct Hin. congruence. }
      assert (Emk : mk_insts c (g_service g) (if g_service g then g_flags g else []) (g_ids g) = map (blank place) (mem xs c)).
      { apply (mk_insts_blank place c (mem xs c)). intros [k x] Hin. apply mem_In in Hin. now destruct Hin. }
      rewrite Emk in E. rewrite E, (Hgrp _ _ Hj), Nat.eqb_refl. cbn [obind].
      destruct (IH (cs0 ++ [c]) (Dcs (k_heap s ++ map (blank place) (mem xs c)) lk (k_root s) (k_meta s) (k_shared s) (k_warns s)))
        as (lk' & E' & Hl'').
      + now rewrite <- app_assoc.
      + cbn [k_look]. unfold order. rewrite flat_map_app. cbn [flat_map]. rewrite app_nil_r. unfold mids in *. rewrite map_app. exact Hl'.
      + cbn [k_heap]. rewrite Hh. unfold order. rewrite flat_map_app, map_app. cbn [flat_map]. now rewrite app_nil_r.
      + rewrite app_length, Nat.add_1_r in E'. rewrite <- Nat.add_succ_r. cbn [k_root k_meta k_shared k_warns] in E'. exists lk'. auto.
  Qed.

  (** ** PROP *)
  Variables (lk : look) (shared : list (bytes * bytes)).
  Hypothesis Hlk : lookup_ok lk (mids (order xs cl)).
  Definition dval (a : array) (m : nat) : res rvalue := dec_value q2m lk shared (stored_array a) m.
  Definition props_inv (done : list entry) (h : heap) : Prop :=
    length h = length (order xs cl) /\
    forall q k x, nth_error (order xs cl) q = Some (k, x) -> exists ps,
      hget h (S q) = Some (Inst (i_class x) [] (mflag place (k, x)) ps []) /\
      forall name v, mfind ps name = Some v <-> exists j a c m,
        In (j, name, a) done /\ nth_error cl j = Some c /\ nth_error (mem xs c) m = Some (k, x) /\ dval a m = OK v.
  Definition entry_good (e : entry) : Prop :=
    exists c, nth_error cl (e_id e) = Some c /\ arr_len (stored_array (e_arr e)) = length (mem xs c) /\
      forall m, m < length (mem xs c) -> exists v, dval (e_arr e) m = OK v.
  Definition ekey (e : entry) : nat * bytes := (e_id e, e_name e).
  Lemma lget_order q k x : nth_error (order xs cl) q = Some (k, x) -> lget lk (Z.of_nat k) = S q.
  Proof. intros H. apply (lget_nth lk _ q _ Hlk). unfold mids. now rewrite nth_error_map, H. Qed.
  Lemma order_pos k x : nth_error xs k = Some x -> exists q, nth_error (order xs cl) q = Some (k, x).
  Proof. intros H. apply (order_In xs cl Hcl) in H. now apply In_nth_error in H. Qed.
  Lemma values_list a n : (forall m, m < n -> exists v, dval a m = OK v) ->
    exists vs, length vs = n /\ forall m v, nth_error vs m = Some v -> dval a m = OK v.
  Proof.
    induction n as [|n IH]; intros H; [exists []; split; [reflexivity|intros [|m] v E; discriminate]|].
    destruct IH as (vs & Hl & Hv); [intros; apply H; lia|]. destruct (H n) as [v Hn]; [lia|].
    exists (vs ++ [v]). rewrite app_length. cbn. split; [lia|]. intros m w E.
    destruct (Nat.lt_ge_cases m (length vs)) as [Hlt|Hge].
    - rewrite nth_error_app1 in E by exact Hlt. now apply Hv.
    - rewrite nth_error_app2 in E by exact Hge. destruct (m - length vs) as [|d] eqn:Ed; [|destruct d; discriminate].
      cbn in E. injection E as <-. now replace m with n by lia.
  Qed.
  Lemma mem_unique c m m' e : nth_error (mem xs c) m = Some e -> nth_error (mem xs c) m' = Some e -> m = m'.
  Proof.
    intros H H'. assert (Hn : NoDup (mem xs c)) by (eapply NoDup_map_inv; apply mem_NoDup).
    rewrite NoDup_nth_error in Hn. apply Hn; [apply nth_error_Some; congruence|congruence].
  Qed.
  Lemma class_unique j j' c c' m m' k x : nth_error cl j = Some c -> nth_error cl j' = Some c' ->
    nth_error (mem xs c) m = Some (k, x) -> nth_error (mem xs c') m' = Some (k, x) -> j = j' /\ c = c' /\ m = m'.
  Proof.
    intros H H' Hm Hm'. assert (c = i_class x) by (apply nth_error_In, mem_In in Hm; destruct Hm; congruence).
    assert (c' = i_class x) by (apply nth_error_In, mem_In in Hm'; destruct Hm'; congruence). subst c c'.
    pose proof (classes_NoDup xs cl Hcl) as Hn. rewrite NoDup_nth_error in Hn.
    split; [apply Hn; [apply nth_error_Some; congruence|congruence]|]. split; [reflexivity|]. eapply mem_unique; eauto.
  Qed.
  Lemma prop_phase : forall es done s ic, NoDup (map ekey (done ++ es)) -> Forall entry_good es ->
    props_inv done (k_heap s) -> k_look s = lk -> k_shared s = shared ->
    exists h', dec_chunk_list q2m f ic (map (fun e => stored_chunk (echunk e)) es) s
      = OK (Dcs h' lk (k_root s) (k_meta s) shared (k_warns s)) /\ props_inv (done ++ es) h'.
  Proof.
    induction es as [|[[j name] a] es IH]; intros done s ic Hn Hg Hinv Hl Hs.
    - exists (k_heap s). rewrite app_nil_r. split; [|exact Hinv]. cbn. rewrite <- Hl, <- Hs. now destruct s.
    - inversion Hg as [|? ? (c & Hj & Hlen & Hv) Hg']; subst. cbn [e_id e_arr fst snd] in Hj, Hlen, Hv.
      cbn [map dec_chunk_list]. cbn [stored_chunk echunk ch_payload stored_payload e_id e_name e_arr fst snd dec_chunk].
      rewrite in_bounds_class by (apply nth_error_Some; congruence). rewrite (Hgrp _ _ Hj).
      assert (Elen : (arr_len (stored_array a) =? length (mids (mem xs c)))%nat = true)
        by (rewrite Hlen; unfold mids; rewrite map_length; apply Nat.eqb_refl).
      rewrite Elen, Hl, Hs. cbn [negb].
      destruct (values_list a _ Hv) as (vs & Hvl & Hvv).
      assert (Hmem : forall m k x, nth_error (mem xs c) m = Some (k, x) -> exists q, nth_error (order xs cl) q = Some (k, x)).
      { intros m k x Hm. apply order_pos. apply nth_error_In, mem_In in Hm. now destruct Hm. }
      destruct Hinv as [Hh Hinv].
      destruct (dec_props_spec q2m lk shared name (stored_array a) (mids (mem xs c)) vs 0 (k_heap s))
        as (h' & E & Hl' & Hspec).
      { unfold mids. now rewrite map_length. }
      { intros m v Hm. now apply Hvv. }
      { apply (NoDup_nth_error (map (lget lk) (mids (mem xs c)))). intros m m' Hm Em. unfold mids in Em, Hm. rewrite !map_map in *. rewrite map_length in Hm.
        rewrite !nth_error_map in Em. destruct (nth_error (mem xs c) m) as [[k x]|] eqn:E1; [|apply nth_error_None in E1; lia].
        destruct (nth_error (mem xs c) m') as [[k' x']|] eqn:E2; [|discriminate]. cbn in Em. injection Em as Em.
        destruct (Hmem _ _ _ E1) as [q Hq]. destruct (Hmem _ _ _ E2) as [q' Hq'].
        rewrite (lget_order _ _ _ Hq), (lget_order _ _ _ Hq') in Em. injection Em as <-. assert (k' = k /\ x' = x) as [-> ->] by (split; congruence).
        eapply mem_unique; eauto. }
      { intros z Hz. unfold mids in Hz. apply in_map_iff in Hz. destruct Hz as ([k x] & <- & Hz). apply In_nth_error in Hz.
        destruct Hz as [m Hm]. destruct (Hmem _ _ _ Hm) as [q Hq]. cbn [fst]. rewrite (lget_order _ _ _ Hq).
        destruct (Hinv _ _ _ Hq) as (ps & Hps & _). eauto. }
      rewrite E. cbn [obind].
      assert (Ed : @app entry done (@cons entry (j, name, a) es) = @app entry (@app entry done (@cons entry (j, name, a) [])) es) by (rewrite <- app_assoc; reflexivity).
      pose proof Hn as Hn0. rewrite Ed in Hn |- *.
      refine (IH (done ++ [(j, name, a)]) (Dcs h' lk (k_root s) (k_meta s) shared (k_warns s)) (S ic) Hn Hg' _ eq_refl eq_refl).
      split; [cbn [k_heap]; congruence|]. intros q k x Hq. destruct (Hinv q k x Hq) as (ps & Hps & Hiff). cbn [k_heap].
      destruct (Hspec (S q) _ Hps) as [Hin Hout].
      assert (Hk : nth_error xs k = Some x) by (apply (order_In xs cl Hcl); eapply nth_error_In; eauto).
      assert (Hfresh : forall a', ~ In (j, name, a') done).
      { intros a' Hin'. rewrite map_app in Hn0. cbn [app map] in Hn0. apply NoDup_remove_2 in Hn0. apply Hn0.
        apply in_or_app. left. apply in_map_iff. exists (j, name, a'). auto. }
      destruct (list_eq_dec Byte.byte_eq_dec (i_class x) c) as [Hc|Hc].
      + assert (Hm : In (k, x) (mem xs c)) by (apply mem_In; auto). apply In_nth_error in Hm. destruct Hm as [m Hm].
        destruct (nth_error vs m) as [v|] eqn:Ev; [|apply nth_error_None in Ev; assert (m < length (mem xs c)) by (apply nth_error_Some; congruence); lia].
        exists (mset ps name v). split.
        * rewrite (Hin m (Z.of_nat k) v); [reflexivity| |exact Ev|eapply lget_order; eauto]. unfold mids. now rewrite nth_error_map, Hm.
        * intros name' w. rewrite mfind_mset. destruct (beqb_spec name name') as [<-|Hne].
          -- split.
             ++ intros [= <-]. exists j, a, c, m. split; [apply in_or_app; right; now left|]. auto.
             ++ intros (j' & a' & c' & m' & Hi & Hj' & Hm' & Hd). destruct (class_unique _ _ _ _ _ _ _ _ Hj Hj' Hm Hm') as (<- & <- & <-).
                apply in_app_or in Hi. destruct Hi as [Hi|[[= <-]|[]]]; [exfalso; eapply Hfresh; eauto|]. rewrite (Hvv _ _ Ev) in Hd. congruence.
          -- rewrite Hiff. split; intros (j' & a' & c' & m' & Hi & Hr); exists j', a', c', m'; (split; [|exact Hr]).
             ++ apply in_or_app. now left.
             ++ apply in_app_or in Hi. destruct Hi as [Hi|[[= <- <- <-]|[]]]; [exact Hi|congruence].
      + exists ps. split.
        * rewrite Hout; [reflexivity|]. intros z Hz Hq'. unfold mids in Hz. apply in_map_iff in Hz. destruct Hz as ([k' x'] & <- & Hz).
          apply In_nth_error in Hz as Hm. destruct Hm as [m Hm]. destruct (Hmem _ _ _ Hm) as [q' Hq2]. cbn [fst] in Hq'. rewrite (lget_order _ _ _ Hq2) in Hq'.
          injection Hq' as ->. assert (x' = x) as -> by congruence. apply mem_In in Hz. now destruct Hz.
        * intros name' w. rewrite Hiff. split; intros (j' & a' & c' & m' & Hi & Hj' & Hm' & Hd); exists j', a', c', m'.
          -- split; [apply in_or_app; now left|auto].
          -- apply in_app_or in Hi. destruct Hi as [Hi|[[= <- <- <-]|[]]]; [auto|]. exfalso. apply Hc.
             assert (c' = c) as -> by congruence. apply nth_error_In, mem_In in Hm'. now destruct Hm'.
  Qed.
End Decode.
