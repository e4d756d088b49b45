(** XmlRound.v - trees written as XML and read back. *)
From Coq Require Import Permutation.
From Verif Require Import Base RbxlValues RbxValues Tree RbxlCodec SpecValues SpecTree SpecCodec SortProofs TreeProofs RbxlCodecEnc
  XmlText XmlDoc XmlCodec SpecXml XmlTextProofs XmlLayout XmlBare XmlValues XmlTreeEnc XmlTreeDec.
Local Notation string := String.string.

(** ** Assignments to properties *)
Definition assign : Type := ptr * bytes * rvalue.
Definition do_assign (h : heap) (a : assign) : heap := let '(p, n, v) := a in set_prop h p n v.
Definition run (l : list assign) (h : heap) : heap := fold_left do_assign l h.
Lemma run_app a b h : run (a ++ b) h = run b (run a h).
Proof. apply fold_left_app. Qed.
Lemma do_assign_length h a : length (do_assign h a) = length h.
Proof. destruct a as [[p n] v]. cbn [do_assign]. unfold set_prop. destruct (hget h p); [apply hset_length|reflexivity]. Qed.
Lemma run_length l : forall h, length (run l h) = length h.
Proof. induction l as [|a l IH]; intros h; [reflexivity|]. cbn [run fold_left]. fold (run l (do_assign h a)). now rewrite IH, do_assign_length. Qed.
Lemma do_assign_get h p n v q i : hget h q = Some i ->
  hget (do_assign h (p, n, v)) q = Some (if (p =? q)%nat then set_props i (mset (i_props i) n v) else i).
Proof.
  intros Hq. cbn [do_assign]. unfold set_prop. destruct (Nat.eqb_spec p q) as [->|Hne].
  - rewrite Hq. rewrite hget_hset, Nat.eqb_refl, Hq. reflexivity.
  - destruct (hget h p) as [j|] eqn:Ep; [|exact Hq]. rewrite hget_hset. destruct (Nat.eqb_spec q p) as [E|_]; [congruence|]. exact Hq.
Qed.
Lemma assigned_dec (l : list assign) q name : (exists v, In (q, name, v) l) \/ (forall v, ~ In (q, name, v) l).
Proof.
  induction l as [|[[p n] x] l IH]; [right; intros v []|].
  destruct (Nat.eq_dec p q) as [->|Hp]; [destruct (beqb_spec n name) as [->|Hn]; [left; exists x; now left|]|];
    (destruct IH as [[v Hv]|N]; [left; exists v; now right|right; intros v [E|Hv]; [|now apply (N v)]]);
    apply pair_equal_spec in E as [E _]; apply pair_equal_spec in E as [E1 E2]; contradiction.
Qed.
Lemma run_get l : forall h q i, hget h q = Some i ->
  exists i', hget (run l h) q = Some i' /\ same_but_props i i' /\ forall name,
    ((forall v, ~ In (q, name, v) l) -> mfind (i_props i') name = mfind (i_props i) name) /\
    (forall v, (exists w, In (q, name, w) l) -> (forall w, In (q, name, w) l -> w = v) -> mfind (i_props i') name = Some v).
Proof.
  induction l as [|[[p n] x] l IH]; intros h q i Hq.
  - exists i. split; [exact Hq|]. split; [now repeat split|]. intros name. split; [reflexivity|]. intros v [w []].
  - cbn [run fold_left]. pose proof (do_assign_get h p n x q i Hq) as H1. destruct (IH _ _ _ H1) as (i' & H2 & H3 & H4).
    exists i'. split; [exact H2|]. split.
    { destruct (p =? q)%nat; [|exact H3]. destruct H3 as (A & B & C & D). destruct i as [ic ir is ip ik]. exact (conj A (conj B (conj C D))). }
    intros name. destruct (H4 name) as [M T]. split.
    + intros N. rewrite M by (intros v Hv; apply (N v); now right). destruct (Nat.eqb_spec p q) as [->|_]; [|reflexivity].
      destruct i as [ic ir is ip ik]; cbn [set_props i_props]. rewrite mfind_mset. destruct (beqb_spec n name) as [->|_]; [|reflexivity].
      destruct (N x). now left.
    + intros v Hv U. destruct (assigned_dec l q name) as [Y|N].
      * apply T; [exact Y|]. intros w Hw. apply U. now right.
      * rewrite M by exact N. destruct Hv as [w [E|Hw]]; [|now destruct (N w)]. apply pair_equal_spec in E as [E1 E2]. apply pair_equal_spec in E1 as [-> ->]. subst w.
        rewrite Nat.eqb_refl. destruct i as [ic ir is ip ik]; cbn [set_props i_props]. rewrite mfind_mset. rewrite (proj2 (bytes_eqb_eq name name) eq_refl).
        f_equal. apply U. now left.
Qed.
(** The loops of the decoder as assignments. *)
Definition ref_assigns (look : refmap) (refs : list propref) : list assign :=
  map (fun e => (pr_inst e, pr_prop e, RReference (rget look (pr_ref e)))) refs.
Lemma resolve_run look refs : forall h, fold_left (fun h e => fst (Resolve (Some look) h e)) refs h = run (ref_assigns look refs) h.
Proof.
  induction refs as [|e refs IH]; intros h; [reflexivity|]. cbn [fold_left ref_assigns map run]. rewrite IH. unfold run. f_equal.
  cbn [Resolve do_assign]. unfold set_prop. now destruct (hget h (pr_inst e)).
Qed.
Definition str_assigns (strs : list propref) (kv : bytes * bytes) : list assign :=
  flat_map (fun e => if bytes_eqb (pr_ref e) (fst kv) then [(pr_inst e, pr_prop e, RSharedString (snd kv))] else []) strs.
Lemma strs_run key value strs : forall h,
  fold_left (fun h e => if bytes_eqb (pr_ref e) key then set_prop h (pr_inst e) (pr_prop e) (RSharedString value) else h) strs h =
  run (str_assigns strs (key, value)) h.
Proof.
  unfold str_assigns. cbn [fst snd]. induction strs as [|e strs IH]; intros h; [reflexivity|]. cbn [fold_left flat_map]. rewrite IH, run_app.
  destruct (bytes_eqb (pr_ref e) key); reflexivity.
Qed.
Definition shared_tag_of (kv : bytes * bytes) (tx : bytes) : tag :=
  Tag (str "SharedString") [] [(str "md5", b64_encode (fst kv))] false false None tx false [].
Lemma b64_no_cr s : no_cr (b64_encode s) = true.
Proof. unfold no_cr. apply (forallb_imp in_b64); [|apply b64_encode_in]. intros b H. now destruct (in_b64_plain b H) as (_ & -> & _). Qed.
Lemma shared_tag_run strs kv tx h : b64_text tx (snd kv) -> shared_tag strs (settled (shared_tag_of kv tx)) h = run (str_assigns strs kv) h.
Proof.
  intros (H1 & H2 & _). unfold shared_tag, shared_tag_of. cbn [settled t_start t_attr map fst snd getContent t_cdata t_text].
  change (bytes_eqb (str "SharedString") (str "SharedString")) with true. cbv iota. cbn [attr_value]. change (bytes_eqb (str "md5") (str "md5")) with true. cbv iota.
  rewrite nl_no_cr by apply b64_no_cr. rewrite b64_decode_encode, nl_text_no_cr, H1 by exact H2. rewrite strs_run. now destruct kv.
Qed.
Lemma shared_tags_ok sh : exists ts,
  all_ok (fun kv => t <- b64_wrapped (snd kv) ;; OK (Tag (str "SharedString") [] [(str "md5", b64_encode (fst kv))] false false None t false [])) sh = OK ts /\
  forallb plain_tag ts = true /\
  forall strs h, fold_left (fun h t => shared_tag strs t h) (map settled ts) h = run (flat_map (str_assigns strs) sh) h.
Proof.
  induction sh as [|kv sh (ts & E & P & R)]; [exists []; now repeat split|]. cbn [all_ok]. destruct (b64_wrapped_ok (snd kv)) as (tx & Ex & Hx). rewrite Ex. cbn [obind].
  rewrite E. cbn [obind]. eexists. split; [reflexivity|]. split; [exact P|]. intros strs h. cbn [map fold_left flat_map]. rewrite R, run_app. f_equal.
  exact (shared_tag_run strs kv tx h Hx).
Qed.
Lemma shared_strings_tag_ok sh : exists ts, shared_strings_tag sh = OK ts /\ forallb plain_tag ts = true /\
  Forall (fun t => t_start t = str "SharedStrings") ts /\
  forall strs md h, root_tags strs (map settled ts) md h = (md, run (flat_map (str_assigns strs) (sort_by fst sh)) h).
Proof.
  destruct (shared_tags_ok (sort_by fst sh)) as (ts & E & P & R). unfold shared_strings_tag.
  destruct sh as [|kv sh]; [exists []; now repeat split|]. rewrite E. cbn [obind]. eexists. split; [reflexivity|]. split; [cbn [forallb plain_tag node]; now rewrite P|].
  split; [now repeat constructor|]. intros strs md h. cbn [map root_tags]. rewrite settled_name. cbn [t_start node].
  change (bytes_eqb (str "SharedStrings") (str "Meta")) with false. change (bytes_eqb (str "SharedStrings") (str "SharedStrings")) with true. cbv iota.
  cbn [settled t_tags]. now rewrite R.
Qed.

(** ** The root tag *)
Definition skipped (t : tag) : Prop := bytes_eqb (t_start t) (str "Item") = false /\ bytes_eqb (t_start t) (str "Properties") = false.
Section Root.
Variable (env : xenv) (discard : bool).
Lemma items_skip a b : Forall skipped a -> forall has props insts s,
  items_loop env discard (get_item env discard) 0 (a ++ b) has props insts s = items_loop env discard (get_item env discard) 0 b has props insts s.
Proof.
  induction 1 as [|t a [H1 H2] _ IH]; intros has props insts s; [reflexivity|]. cbn [app items_loop]. rewrite H1, H2. apply IH.
Qed.
Lemma items_skip_end a b : Forall skipped b -> forall has props insts s,
  items_loop env discard (get_item env discard) 0 (a ++ b) has props insts s = items_loop env discard (get_item env discard) 0 a has props insts s.
Proof.
  intros Hb. induction a as [|t a IH]; intros has props insts s.
  - cbn [app]. rewrite <- (app_nil_r b). now rewrite items_skip.
  - cbn [app items_loop]. destruct (bytes_eqb (t_start t) (str "Item")).
    { destruct (get_item env discard t s) as [[r s1]|e| |]; cbn [obind]; auto. }
    destruct (bytes_eqb (t_start t) (str "Properties")); [|apply IH].
    destruct (has || (0 =? 0)%nat); [apply IH|]. destruct (get_props env discard 0 (t_tags t) props s) as [[r s1]|e| |]; cbn [obind]; auto.
Qed.
End Root.
Lemma root_tags_app strs a b : forall md h, root_tags strs (a ++ b) md h = let '(md, h) := root_tags strs a md h in root_tags strs b md h.
Proof.
  induction a as [|t a IH]; intros md h; [reflexivity|]. cbn [app root_tags].
  destruct (bytes_eqb (t_start t) (str "Meta")); [apply IH|]. destruct (bytes_eqb (t_start t) (str "SharedStrings")); apply IH.
Qed.
Lemma root_tags_skip strs a : Forall (fun t => bytes_eqb (t_start t) (str "Meta") = false /\ bytes_eqb (t_start t) (str "SharedStrings") = false) a ->
  forall md h, root_tags strs a md h = (md, h).
Proof. induction 1 as [|t a [H1 H2] _ IH]; intros md h; [reflexivity|]. cbn [root_tags]. rewrite H1, H2. apply IH. Qed.
Definition meta_tag (kv : bytes * bytes) : tag := Tag (str "Meta") [] [(str "name", fst kv)] false false None (snd kv) false [].
Definition meta_read (l : list (bytes * bytes)) (md : list (bytes * bytes)) : list (bytes * bytes) :=
  fold_left (fun m kv => mset m (nl (fst kv)) (nl_text (snd kv))) l md.
Lemma root_tags_meta strs l : forall md h, root_tags strs (map settled (map meta_tag l)) md h = (meta_read l md, h).
Proof.
  induction l as [|kv l IH]; intros md h; [reflexivity|]. cbn [map root_tags meta_tag settled t_start t_attr t_text fst snd].
  change (bytes_eqb (str "Meta") (str "Meta")) with true. cbv iota. cbn [attr_value]. change (bytes_eqb (str "name") (str "name")) with true. cbv iota.
  fold (map meta_tag l). now rewrite IH.
Qed.
Lemma meta_read_find l : NoDup (map fst l) -> Forall (fun kv => no_cr (fst kv) = true) l -> forall md k,
  mfind (meta_read l md) k = match mfind l k with Some v => Some (nl_text v) | None => mfind md k end.
Proof.
  induction l as [|[k0 v0] l IH]; intros Hd Hc md k; [reflexivity|]. cbn [map fst] in Hd. apply NoDup_cons_iff in Hd as [Hn Hd]. apply Forall_cons_iff in Hc as [Hc Hc'].
  cbn [meta_read fold_left]. fold (meta_read l (mset md (nl (fst (k0, v0))) (nl_text (snd (k0, v0))))). cbn [fst snd] in *. rewrite IH by assumption. cbn [mfind].
  rewrite (nl_no_cr k0) by exact Hc. rewrite mfind_mset. destruct (beqb_spec k0 k) as [->|Hne]; [|reflexivity].
  destruct (mfind l k) as [v|] eqn:E; [|reflexivity]. destruct Hn. apply mfind_key. eauto.
Qed.

(** ** References *)
Lemma look_find noref rho phi l q : (forall p, In p l -> rho p = rho q -> p = q) -> forall m, mfind m (rho q) = None ->
  mfind (look_of noref rho phi l m) (rho q) = if noref then None else if existsb (Nat.eqb q) l then Some (phi q) else None.
Proof.
  unfold look_of. destruct noref; [auto|]. induction l as [|p l IH] using rev_ind; intros Hinj m Hm; [exact Hm|].
  rewrite fold_left_app, existsb_app. cbn [fold_left existsb]. rewrite mfind_mset. destruct (beqb_spec (rho p) (rho q)) as [E|Hne].
  - apply Hinj in E; [|apply in_or_app; right; now left]. subst p. rewrite Nat.eqb_refl, orb_true_r, ?orb_true_r. now destruct (existsb (Nat.eqb q) l).
  - destruct (Nat.eqb_spec q p) as [->|_]; [contradiction|]. rewrite !orb_false_r. apply IH; [|exact Hm]. intros p' H. apply Hinj. apply in_or_app. now left.
Qed.
Definition phi_of (nodes : list ptr) (p : ptr) : ptr := match index_of p nodes with Some k => S k | None => 0 end.
Lemma index_of_nth l : NoDup l -> forall k p, nth_error l k = Some p -> index_of p l = Some k.
Proof.
  induction 1 as [|q l Hq _ IH]; intros [|k] p H; cbn in H; [discriminate H|discriminate H| |].
  - apply Some_eq in H. subst q. cbn [index_of]. now rewrite Nat.eqb_refl.
  - cbn [index_of]. destruct (Nat.eqb_spec q p) as [->|_]; [destruct Hq; eapply nth_error_In; eauto|]. now rewrite (IH k p H).
Qed.
Lemma nth_index_of l p k : index_of p l = Some k -> nth_error l k = Some p.
Proof.
  revert k. induction l as [|q l IH]; intros k; cbn [index_of]; [discriminate|]. destruct (Nat.eqb_spec q p) as [->|_]; [intros [= <-]; reflexivity|].
  destruct (index_of p l) as [j|]; [|discriminate]. intros [= <-]. cbn. now apply IH.
Qed.
Lemma phi_placed l : NoDup l -> placed (phi_of l) 1 l.
Proof. intros Hd k p H. unfold phi_of. now rewrite (index_of_nth l Hd k p H). Qed.
Lemma phi_out l p : ~ In p l -> phi_of l p = 0.
Proof. intros H. unfold phi_of. destruct (index_of p l) as [k|] eqn:E; [|reflexivity]. destruct H. eapply nth_error_In, nth_index_of, E. Qed.
Lemma phi_in l p : In p l -> exists k, phi_of l p = S k /\ nth_error l k = Some p.
Proof. intros H. destruct (index_of_In _ _ H) as [k Hk]. exists k. unfold phi_of. rewrite Hk. split; [reflexivity|now apply nth_index_of]. Qed.
Lemma phi_inj l p q : In p l -> In q l -> phi_of l p = phi_of l q -> p = q.
Proof. intros Hp Hq E. destruct (phi_in _ _ Hp) as (k & E1 & N1), (phi_in _ _ Hq) as (j & E2 & N2). rewrite E1, E2 in E. injection E as ->. congruence. Qed.
Lemma imm_props_find env discard l : NoDup (map fst l) -> forall acc name,
  mfind (imm_props env discard l acc) name =
  match mfind l name with Some v => match imm env discard v with Some w => Some w | None => mfind acc name end | None => mfind acc name end.
Proof.
  induction l as [|[n v] l IH]; intros Hd acc name; [reflexivity|]. cbn [map fst] in Hd. apply NoDup_cons_iff in Hd as [Hn Hd].
  cbn [imm_props fold_left fst snd]. match goal with |- mfind (fold_left _ _ ?a) _ = _ => set (acc' := a) end.
  change (mfind (imm_props env discard l acc') name = match mfind ((n, v) :: l) name with Some v => match imm env discard v with Some w => Some w | None => mfind acc name end | None => mfind acc name end).
  rewrite IH by exact Hd. cbn [mfind]. subst acc'. destruct (beqb_spec n name) as [->|Hne].
  - destruct (mfind l name) as [w|] eqn:E; [destruct Hn; apply mfind_key; eauto|]. destruct (imm env discard v) as [w|]; [|reflexivity].
    rewrite mfind_mset. now rewrite (proj2 (bytes_eqb_eq name name) eq_refl).
  - assert (G : mfind (match imm env discard v with Some v => mset acc n v | None => acc end) name = mfind acc name).
    { destruct (imm env discard v) as [w|]; [|reflexivity]. rewrite mfind_mset. now destruct (beqb_spec n name). }
    now rewrite G.
Qed.
Lemma itag_known env discard h0 noref rho K t tg : itag env discard h0 noref rho K t tg ->
  (forall p, In p (rnodes t) -> K [] p) /\
  (forall p i name v, In p (rnodes t) -> hget h0 p = Some i -> In (name, v) (i_props i) -> known env K (name, v)).
Proof.
  revert t tg. refine (itag_ind' _ _ _ _ _ _ _ _). intros p ts i pts kids Hi HK _ _ Hp Hk. rewrite rnodes_node.
  assert (G : forall q, In q (fnodes ts) -> K [] q /\ forall i name v, hget h0 q = Some i -> In (name, v) (i_props i) -> known env K (name, v)).
  { clear -Hk. intros q Hq. unfold fnodes in Hq. induction Hk as [|t tg ts kids [_ [A B]] _ IH]; [destruct Hq|]. cbn [flat_map] in Hq.
    apply in_app_or in Hq as [Hq|Hq]; [split; [now apply A|intros; eapply B; eauto]|now apply IH]. }
  split.
  - intros q [<-|Hq]; [exact HK|now apply G].
  - intros q j name v [<-|Hq] Hj Hin; [|destruct (G q Hq) as [_ G2]; eapply G2; eauto]. rewrite Hi in Hj. apply Some_eq in Hj. subst j.
    assert (Hin' : In (name, v) (sort_by fst (i_props i))) by (eapply Permutation_in; [apply sort_perm|exact Hin]).
    clear -Hp Hin'. induction Hp as [|a b l l' [_ H] _ IH]; [destruct Hin'|]. destruct Hin' as [->|Hin']; [exact H|now apply IH].
Qed.

(** ** Writing *)
Section Main.
Variable (env : xenv) (rnd : nat -> bytes) (h : heap) (ts : list rtree) (o : xopts) (r : root).
Let nodes := fnodes ts.
Let Pool b := In b (shared_strings h nodes).
Hypothesis Hfl : floats_ok (xe_fl env).
Hypothesis Hrnd : forall k, length (rnd k) = 16.
Hypothesis Hnr : never_repeats (length h) rnd.
Hypothesis Hf : forest_at h ts.
Hypothesis Hroots : r_instances r = map rroot ts.
Hypothesis Hst : xml_storable h nodes.

Lemma nodes_ok p : In p nodes -> inst_ok h Pool p.
Proof.
  intros Hp. destruct Hf as [Ht Hd]. destruct (forest_nodes h ts Ht p Hp) as [i Hi]. exists i. split; [exact Hi|].
  assert (Hin : inst_in h nodes i) by (exists p; auto). destruct Hst as [S1 S2 S3]. destruct (S1 i Hin) as [S1a S1b]. split; [exact S1a|].
  apply Forall_forall. intros [name v] Hv. assert (Hfind : mfind (i_props i) name = Some v) by now apply In_mfind.
  destruct (S2 i name v Hin Hfind) as (A & B & C). split; [exact A|]. split; [exact B|]. split; [exact C|]. cbn [snd]. destruct v; try exact I.
  - destruct (Nat.eq_dec p0 0) as [->|Hne]; [now left|]. right. exact (S3 i name p0 Hin Hfind Hne).
  - unfold Pool, shared_strings. apply in_flat_map. exists p. split; [exact Hp|]. rewrite Hi. apply in_flat_map. exists (name, RSharedString s). split; [exact Hv|now left].
Qed.
Definition meta_tags : list tag := if o_nometa o then [] else map meta_tag (sort_by fst (r_metadata r)).
Definition ext_tags : list tag := if o_noext o then [] else [leaf "External" (str "null") false; leaf "External" (str "nil") false].
Definition root_tag (items sh : list tag) : tag :=
  Tag (str "roblox") [] root_attrs false false None [] false (meta_tags ++ ext_tags ++ items ++ sh).
Lemma write_ok fuel : length h <= fuel -> exists items sh s',
  codec_write env rnd fuel o h (Some r) = OK (root_tag items sh, re_heap s') /\ shared_strings_tag (re_shared s') = OK sh /\
  INV env rnd h Pool s' /\ forall discard rho K, fits rho K s' -> Forall2 (itag env discard h (o_noref o) rho K) ts items.
Proof.
  intros Hfuel. destruct Hf as [Ht Hd].
  assert (E : forall discard, exists tgs s', encode_list (encodeInstance env rnd fuel (o_noref o)) (map rroot ts) (Rest h [] 0 []) = OK (tgs, s') /\
     INV env rnd h Pool s' /\ forall rho K, fits rho K s' -> Forall2 (itag env discard h (o_noref o) rho K) ts tgs).
  { intros discard. destruct (encode_forest_ok env discard rnd h Pool (o_noref o) Hfl Hrnd Hnr ts Ht nodes_ok fuel (Rest h [] 0 [])) as (tgs & s' & E & I & _ & F).
    - intros t Hin. etransitivity; [apply (height_forest ts t Hin)|]. etransitivity; [apply (nodes_le h ts (conj Ht Hd))|]. exact Hfuel.
    - apply INV_start.
    - eauto. }
  destruct (E false) as (tgs & s' & E1 & I1 & F1). destruct (E true) as (tgs' & s'' & E2 & _ & F2). rewrite E1 in E2. apply OK_pair' in E2 as [<- <-].
  destruct (shared_strings_tag_ok (re_shared s')) as (sh & Es & _). exists tgs, sh, s'.
  split; [|split; [exact Es|]; split; [exact I1|]; intros []; assumption].
  unfold codec_write. rewrite Hroots, E1. cbn [obind]. rewrite Es. cbn [obind]. reflexivity.
Qed.
(** The run of the encoder over the items. *)
Lemma write_list fuel : length h <= fuel -> exists items s',
  encode_list (encodeInstance env rnd fuel (o_noref o)) (r_instances r) (Rest h [] 0 []) = OK (items, s') /\ INV env rnd h Pool s'.
Proof.
  intros Hfuel. destruct Hf as [Ht Hd]. rewrite Hroots.
  destruct (encode_forest_ok env false rnd h Pool (o_noref o) Hfl Hrnd Hnr ts Ht nodes_ok fuel (Rest h [] 0 [])) as (tgs & s' & E & I & _ & F); [| |eauto].
  - intros t Hin. etransitivity; [apply (height_forest ts t Hin)|]. etransitivity; [apply (nodes_le h ts (conj Ht Hd))|]. exact Hfuel.
  - apply INV_start.
Qed.
Lemma root_plain items sh : forallb plain_tag items = true -> forallb plain_tag sh = true -> plain_tag (root_tag items sh) = true.
Proof.
  intros H1 H2. unfold root_tag. cbn [plain_tag].
  change (good_name (str "roblox")) with true. change (forallb (fun a => good_name (fst a)) root_attrs) with true. cbn [nonempty negb andb].
  rewrite !forallb_app, H1, H2. unfold meta_tags, ext_tags. destruct (o_noext o); cbn [forallb andb]; [|change (plain_tag (leaf "External" (str "null") false)) with true; change (plain_tag (leaf "External" (str "nil") false)) with true];
    cbn [andb]; rewrite ?andb_true_r; destruct (o_nometa o); try reflexivity; induction (sort_by fst (r_metadata r)) as [|kv l IH]; auto.
Qed.

Variable (s' : rest_) (items sh : list tag) (discard : bool).
Hypothesis HI : INV env rnd h Pool s'.
Hypothesis Hitems : forall rho K, fits rho K s' -> Forall2 (itag env discard h (o_noref o) rho K) ts items.
Hypothesis Hsh : shared_strings_tag (re_shared s') = OK sh.
Hypothesis Hcol : no_collision (xe_hash env) h nodes.
Hypothesis Hmd : NoDup (map fst (r_metadata r)).
Hypothesis Hmk : Forall (fun kv => no_cr (fst kv) = true) (r_metadata r).
Let rho p := match hget (re_heap s') p with Some i => i_ref i | None => [] end.
Let K k q := (k = @nil byte /\ mfind (re_refs s') (rho q) = Some q) \/ (q = 0 /\ exists b, mfind (re_shared s') k = Some b).
Let phi := phi_of nodes.
Lemma the_fit : fits rho K s'.
Proof.
  destruct HI as ((_ & _ & R & _) & _). split.
  - intros k q Hq. destruct (R k q Hq) as (_ & _ & i & Hi & Er). assert (E : rho q = k) by (unfold rho; now rewrite Hi). split; [exact E|]. left. now rewrite E.
  - intros k b Hk. right. eauto.
Qed.
Lemma the_items : Forall2 (itag env discard h (o_noref o) rho K) ts items.
Proof. apply Hitems, the_fit. Qed.
Lemma K_ref q : K [] q -> q <> 0 -> mfind (re_refs s') (rho q) = Some q.
Proof. intros [[_ H]|[-> _]] Hne; [exact H|contradiction]. Qed.
Lemma no_zero : mfind (re_refs s') (rho 0) <> Some 0.
Proof. intros H. destruct HI as ((_ & _ & R & _) & _). destruct (R _ _ H) as (_ & _ & i & Hi & _). discriminate Hi. Qed.
Lemma K_key k : K k 0 -> exists b, mfind (re_shared s') k = Some b.
Proof. intros [[-> H]|[_ H]]; [destruct (no_zero H)|exact H]. Qed.
Lemma node_nonzero p : In p nodes -> p <> 0.
Proof. intros H ->. destruct Hf as [Ht _]. destruct (forest_nodes h ts Ht 0 H) as [i Hi]. discriminate Hi. Qed.
Lemma all_known : (forall p, In p nodes -> K [] p) /\
  (forall p i name v, In p nodes -> hget h p = Some i -> In (name, v) (i_props i) -> known env K (name, v)).
Proof.
  pose proof the_items as H. unfold nodes. clear -H. induction H as [|t tg ts tgs Ht _ [IH1 IH2]]; [split; intros p; try intros i name v; intros []|].
  destruct (itag_known _ _ _ _ _ _ _ _ Ht) as [A B]. rewrite fnodes_cons. split.
  - intros p Hp. apply in_app_or in Hp as [Hp|Hp]; auto.
  - intros p i name v Hp. apply in_app_or in Hp as [Hp|Hp]; [eapply B; eauto|eapply IH2; eauto].
Qed.
Lemma rho_inj p q : K [] p -> p <> 0 -> K [] q -> q <> 0 -> rho p = rho q -> p = q.
Proof. intros H1 N1 H2 N2 E. apply K_ref in H1, H2; auto. rewrite E in H1. congruence. Qed.
Lemma rget_phi q : K [] q -> q <> 0 -> rget (look_of (o_noref o) rho phi nodes []) (rho q) = if o_noref o then 0 else phi q.
Proof.
  intros HK Hq. unfold rget. rewrite look_find; [|intros p Hp E; apply rho_inj; auto; [now apply all_known|now apply node_nonzero]|reflexivity].
  destruct (o_noref o); [reflexivity|]. destruct (existsb (Nat.eqb q) nodes) eqn:E; [reflexivity|]. symmetry. apply phi_out. intros Hin.
  assert (existsb (Nat.eqb q) nodes = true) by (apply existsb_exists; exists q; split; [exact Hin|apply Nat.eqb_refl]). congruence.
Qed.
Lemma strs_in e : In e (flat_map (strs_of env h phi) nodes) <->
  exists p x name b, In p nodes /\ hget h p = Some x /\ mfind (i_props x) name = Some (RSharedString b) /\ e = PropRef (phi p) name (xe_hash env b).
Proof.
  destruct Hf as [Ht Hd]. destruct Hst as [S1 _ _]. rewrite in_flat_map. split.
  - intros (p & Hp & He). destruct (forest_nodes h ts Ht p Hp) as [x Hx]. assert (Hin : inst_in h nodes x) by (exists p; auto). destruct (S1 x Hin) as [_ ND].
    unfold strs_of, sprops, inst_at in He. rewrite Hx in He. apply in_flat_map in He as ([name v] & Hv & He). unfold later_str in He. cbn [fst snd] in He.
    destruct v; try contradiction. destruct He as [<-|[]]. exists p, x, name, s. split; [exact Hp|]. split; [exact Hx|]. split; [|reflexivity].
    apply In_mfind; [exact ND|]. eapply Permutation_in; [symmetry; apply sort_perm|exact Hv].
  - intros (p & x & name & b & Hp & Hx & Hv & ->). exists p. split; [exact Hp|]. unfold strs_of, sprops, inst_at. rewrite Hx. apply in_flat_map. exists (name, RSharedString b).
    split; [|now left]. eapply Permutation_in; [apply sort_perm|]. now apply mfind_In.
Qed.
Lemma refs_in e : In e (flat_map (refs_of h rho phi) nodes) <->
  exists p x name q, In p nodes /\ hget h p = Some x /\ mfind (i_props x) name = Some (RReference q) /\ q <> 0 /\ e = PropRef (phi p) name (rho q).
Proof.
  destruct Hf as [Ht Hd]. destruct Hst as [S1 _ _]. rewrite in_flat_map. split.
  - intros (p & Hp & He). destruct (forest_nodes h ts Ht p Hp) as [x Hx]. assert (Hin : inst_in h nodes x) by (exists p; auto). destruct (S1 x Hin) as [_ ND].
    unfold refs_of, sprops, inst_at in He. rewrite Hx in He. apply in_flat_map in He as ([name v] & Hv & He). unfold later_ref in He. cbn [fst snd] in He.
    destruct v; try contradiction. destruct (Nat.eqb_spec p0 0) as [|Hne]; [destruct He|]. destruct He as [<-|[]]. exists p, x, name, p0. split; [exact Hp|]. split; [exact Hx|]. split; [|now split].
    apply In_mfind; [exact ND|]. eapply Permutation_in; [symmetry; apply sort_perm|exact Hv].
  - intros (p & x & name & q & Hp & Hx & Hv & Hq & ->). exists p. split; [exact Hp|]. unfold refs_of, sprops, inst_at. rewrite Hx. apply in_flat_map. exists (name, RReference q).
    split; [eapply Permutation_in; [apply sort_perm|]; now apply mfind_In|]. unfold later_ref. cbn [fst snd]. destruct (Nat.eqb_spec q 0); [contradiction|]. now left.
Qed.
Let look := look_of (o_noref o) rho phi nodes [].
Definition later (v w : rvalue) : Prop :=
  match v with
  | RReference q => q <> 0 /\ w = RReference (if o_noref o then 0 else phi q)
  | RSharedString b => w = RSharedString b
  | _ => False
  end.
Definition assigns : list assign :=
  flat_map (str_assigns (flat_map (strs_of env h phi) nodes)) (sort_by fst (re_shared s')) ++ ref_assigns look (flat_map (refs_of h rho phi) nodes).
Lemma the_prop p q x y name v w : In p nodes -> In q nodes -> hget h p = Some x -> hget h q = Some y -> phi p = phi q ->
  mfind (i_props x) name = Some v -> mfind (i_props y) name = Some w -> v = w.
Proof. intros Hp Hq Hx Hy E H1 H2. apply phi_inj in E; auto. subst q. rewrite Hx in Hy. apply Some_eq in Hy. subst y. congruence. Qed.
Lemma assigns_in p x name w : In p nodes -> hget h p = Some x ->
  In (phi p, name, w) assigns <-> exists v, mfind (i_props x) name = Some v /\ later v w.
Proof.
  intros Hp Hx. destruct HI as (HR & _ & _ & ND & SH). destruct all_known as [KN KP]. unfold assigns. rewrite in_app_iff. split.
  - intros [H|H].
    + apply in_flat_map in H as ([k b'] & Hk & H). unfold str_assigns in H. apply in_flat_map in H as (e & He & H). cbn [fst snd] in H.
      apply strs_in in He as (q & y & n & b & Hq & Hy & Hv & ->). cbn [pr_ref pr_inst pr_prop] in H. destruct (beqb_spec (xe_hash env b) k) as [Ek|_]; [|destruct H].
      destruct H as [H|[]]. apply pair_equal_spec in H as [H <-]. apply pair_equal_spec in H as [E <-].
      apply phi_inj in E; auto. subst q. rewrite Hx in Hy. apply Some_eq in Hy. subst y. exists (RSharedString b). split; [exact Hv|]. cbn [later]. f_equal.
      assert (Hk' : mfind (re_shared s') k = Some b') by (apply In_mfind; [exact ND|]; eapply Permutation_in; [symmetry; apply sort_perm|exact Hk]).
      destruct (SH _ _ Hk') as [E1 E2]. apply Hcol; [exact E2| |congruence].
      unfold shared_strings. apply in_flat_map. exists p. split; [exact Hp|]. rewrite Hx. apply in_flat_map. exists (n, RSharedString b). split; [now apply mfind_In|now left].
    + unfold ref_assigns in H. apply in_map_iff in H as (e & H & He). apply refs_in in He as (q & y & n & t & Hq & Hy & Hv & Ht & ->). cbn [pr_ref pr_inst pr_prop] in H.
      apply pair_equal_spec in H as [H <-]. apply pair_equal_spec in H as [E <-]. apply phi_inj in E; auto. subst q. rewrite Hx in Hy. apply Some_eq in Hy. subst y.
      exists (RReference t). split; [exact Hv|]. split; [exact Ht|]. f_equal. apply rget_phi; [|exact Ht].
      assert (Hkn : known env K (n, RReference t)) by (eapply KP; eauto; now apply mfind_In). destruct Hkn as [->|HK]; [contradiction|exact HK].
  - intros (v & Hv & HL). destruct v; try contradiction.
    + destruct HL as [HL1 HL2]. right. unfold ref_assigns. apply in_map_iff. exists (PropRef (phi p) name (rho p0)). cbn [pr_ref pr_inst pr_prop]. subst w. split.
      * f_equal. f_equal. apply rget_phi; [|assumption]. assert (Hkn : known env K (name, RReference p0)) by (eapply KP; eauto; now apply mfind_In). destruct Hkn as [->|HK]; [contradiction|exact HK].
      * apply refs_in. exists p, x, name, p0. now repeat split.
    + left. cbn [later] in HL. subst w. assert (Hkn : known env K (name, RSharedString s)) by (eapply KP; eauto; now apply mfind_In). cbn [known snd] in Hkn.
      apply K_key in Hkn as [b' Hb']. destruct (SH _ _ Hb') as [E1 E2].
      assert (Eb : b' = s).
      { apply Hcol; [exact E2| |congruence]. unfold shared_strings. apply in_flat_map. exists p. split; [exact Hp|]. rewrite Hx. apply in_flat_map. exists (name, RSharedString s). split; [now apply mfind_In|now left]. }
      subst b'. apply in_flat_map. exists (xe_hash env s, s). split; [eapply Permutation_in; [apply sort_perm|]; now apply mfind_In|].
      unfold str_assigns. cbn [fst snd]. apply in_flat_map. exists (PropRef (phi p) name (xe_hash env s)). split; [apply strs_in; exists p, x, name, s; now repeat split|].
      cbn [pr_ref pr_inst pr_prop]. rewrite (proj2 (bytes_eqb_eq (xe_hash env s) (xe_hash env s)) eq_refl). now left.
Qed.
Definition heap_read : heap := run assigns (map (cell env discard h (o_noref o) rho phi) nodes).
Lemma heap_image : xml_image (xe_fl env) discard (o_noref o) h (re_heap s') nodes phi heap_read.
Proof.
  destruct Hf as [Ht Hd]. destruct Hst as [S1 S2 S3]. constructor.
  - unfold heap_read. now rewrite run_length, map_length.
  - apply phi_inj.
  - apply phi_out.
  - intros p x Hp Hx. destruct (phi_in nodes p Hp) as (k & Ek & Nk). fold phi in Ek.
    assert (Hc : hget (map (cell env discard h (o_noref o) rho phi) nodes) (phi p) = Some (cell env discard h (o_noref o) rho phi p)).
    { rewrite Ek. cbn [hget]. now apply map_nth_error. }
    destruct (run_get assigns _ _ _ Hc) as (x' & Hx' & (A & B & C & D) & HP).
    destruct HI as ((_ & R1 & _) & _). destruct (R1 p x Hx) as (y & Hy & _).
    exists x', y. split; [exact Hx'|]. split; [exact Hy|]. rewrite <- A, <- B, <- C, <- D. unfold cell, inst_at. rewrite Hx. cbn [i_class i_service i_ref i_children].
    split; [reflexivity|]. split; [reflexivity|]. split; [reflexivity|]. split; [unfold rho; now rewrite Hy|].
    intros name. destruct (HP name) as [M T]. assert (Hin : inst_in h nodes x) by (exists p; auto). destruct (S1 x Hin) as [_ ND].
    assert (Ei : mfind (i_props (cell env discard h (o_noref o) rho phi p)) name =
      match mfind (i_props x) name with Some v => imm env discard v | None => None end).
    { unfold cell, sprops, inst_at. rewrite Hx. cbn [i_props]. rewrite imm_props_find.
      - rewrite <- (mfind_perm (i_props x)); [|exact ND|apply sort_perm]. destruct (mfind (i_props x) name) as [v|]; [|reflexivity]. now destruct (imm env discard v).
      - eapply Permutation_NoDup; [|exact ND]. apply Permutation_map, sort_perm. }
    assert (Hmiss : (forall v w, mfind (i_props x) name = Some v -> ~ later v w) -> forall w, ~ In (phi p, name, w) assigns).
    { intros N w Hw. apply (assigns_in p x name w Hp Hx) in Hw as (v & Hv & HL). exact (N v w Hv HL). }
    destruct (mfind (i_props x) name) as [v|] eqn:Ev.
    2:{ rewrite M; [exact Ei|]. apply Hmiss. discriminate. }
    assert (Hcase : (exists q, v = RReference q) \/ (exists b, v = RSharedString b) \/ self_contained v) by (destruct v; try (right; right; exact I); [left|right; left]; eauto).
    destruct Hcase as [[q ->]|[[b ->]|Hs]].
    + destruct (Nat.eq_dec q 0) as [->|Hq].
      * rewrite M; [rewrite Ei; cbn [imm Nat.eqb xml_prop]; f_equal; f_equal; case (o_noref o); [reflexivity|]; symmetry; apply phi_out; intros H0; now apply node_nonzero in H0|].
        apply Hmiss. intros v w E HL. apply Some_eq in E. subst v. destruct HL as [HL _]. contradiction.
      * cbn [xml_prop]. apply T; [exists (RReference (if o_noref o then 0 else phi q)); apply (assigns_in p x name _ Hp Hx); exists (RReference q); split; [exact Ev|split; [exact Hq|reflexivity]]|].
        intros w Hw. apply (assigns_in p x name w Hp Hx) in Hw as (v & Hv & HL). rewrite Ev in Hv. apply Some_eq in Hv. subst v. apply HL.
    + cbn [xml_prop]. apply T; [exists (RSharedString b); apply (assigns_in p x name _ Hp Hx); exists (RSharedString b); now split|].
      intros w Hw. apply (assigns_in p x name w Hp Hx) in Hw as (v & Hv & HL). rewrite Ev in Hv. apply Some_eq in Hv. subst v. exact HL.
    + rewrite M; [rewrite Ei, (imm_self env discard v Hs); destruct v; try contradiction; reflexivity|]. apply Hmiss. intros v' w E HL. apply Some_eq in E. subst v'. destruct v; contradiction.
Qed.
Lemma read_ok w : exists mt, codec_read env discard (Doc [] [] [] false (Some (settled (root_tag items sh))) w) = OK (Root (map phi (map rroot ts)) mt, heap_read, w) /\
  forall k, mfind mt k = if o_nometa o then None else option_map nl_text (mfind (r_metadata r) k).
Proof.
  destruct Hf as [Ht Hd]. destruct (reads_forest env discard h (o_noref o) rho K phi ts items the_items Ht) as [HR HS].
  destruct (shared_strings_tag_ok (re_shared s')) as (sh' & Es & _ & Hss & Hrun). assert (Esh : sh = sh') by congruence. rewrite <- Esh in Hss, Hrun.
  unfold codec_read. cbn [doc_root doc_warn]. unfold root_tag. cbn [settled t_tags]. rewrite !map_app.
  assert (Sk1 : Forall skipped (map settled meta_tags)).
  { unfold meta_tags. destruct (o_nometa o); [constructor|]. apply Forall_forall. intros t Hin. apply in_map_iff in Hin as (u & <- & Hin). apply in_map_iff in Hin as (kv & <- & _). now split. }
  assert (Sk2 : Forall skipped (map settled ext_tags)) by (unfold ext_tags; destruct (o_noext o); repeat constructor).
  assert (Sk3 : Forall skipped (map settled sh)).
  { apply Forall_forall. intros t Hin. apply in_map_iff in Hin as (u & <- & Hin). rewrite Forall_forall in Hss. split; rewrite settled_name, (Hss u Hin); reflexivity. }
  unfold getItems. rewrite items_skip by exact Sk1. rewrite items_skip by exact Sk2. rewrite items_skip_end by exact Sk3.
  rewrite (items_in env discard h (o_noref o) rho K phi 0 false (@nil (bytes * rvalue)) ts items (@nil ptr) _ HR HS); [|cbn [rd_heap length]; now apply phi_placed].
  cbn [obind app]. unfold after. cbn [rd_heap rd_look rd_props rd_strs rd_warn app].
  rewrite root_tags_app. destruct (root_tags _ (map settled meta_tags) [] _) as [mt h1] eqn:Em.
  rewrite root_tags_app. rewrite (root_tags_skip _ (map settled ext_tags)) by (unfold ext_tags; destruct (o_noext o); repeat constructor).
  rewrite root_tags_app. rewrite (root_tags_skip _ (map settled items)).
  2:{ apply Forall_forall. intros t Hin. apply in_map_iff in Hin as (u & <- & Hin). rewrite Forall_forall in HS. split; rewrite settled_name, (HS u Hin); reflexivity. }
  rewrite Hrun, resolve_run, <- run_app. exists mt. 
  assert (G : h1 = map (cell env discard h (o_noref o) rho phi) (fnodes ts) /\ forall k, mfind mt k = if o_nometa o then None else option_map nl_text (mfind (r_metadata r) k)).
  { unfold meta_tags in Em. destruct (o_nometa o); [cbn [map root_tags] in Em; apply pair_equal_spec in Em as [<- <-]; now split|].
    rewrite root_tags_meta in Em. apply pair_equal_spec in Em as [<- <-]. split; [reflexivity|]. intros k. rewrite meta_read_find.
    - rewrite <- (mfind_perm (r_metadata r)); [|exact Hmd|apply sort_perm]. cbn [mfind]. now destruct (mfind (r_metadata r) k).
    - eapply Permutation_NoDup; [|exact Hmd]. apply Permutation_map, sort_perm.
    - eapply Permutation_Forall; [apply sort_perm|exact Hmk]. }
  destruct G as [-> G]. split; [|exact G]. reflexivity.
Qed.
End Main.
