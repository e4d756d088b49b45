(** PropSame.v - C102: what the binary encoder writes depends on the tree only. *)
From Coq Require Import Permutation.
From Verif Require PropXmlResave.
From Verif Require Import Base RbxlValues RbxlArrays RbxlModel RbxlFile RbxValues Tree RbxlCodec RbxlApi SpecTree SpecCodec SpecRoot SpecSame
  TreeProofs SortProofs PropRoot PropTree RbxlCodecEnc RbxlCodecOut RbxlResaveTree SameTree PropFile PropCodecEx.

Lemma same_forest phi h h' ts : forest_at h ts -> same_tree phi h (fnodes ts) h' -> forest_at h' (map (rtmap phi) ts).
Proof.
  intros [Ht Hn] Hs. split.
  - rewrite Forall_map. rewrite Forall_forall in *. intros t Hi. eapply tree_map; [now apply Ht|]. intros p x Hp Hx.
    destruct (sm_inst _ _ _ _ Hs p x) as (x' & Hx' & S); [unfold fnodes; apply in_flat_map; eauto|exact Hx|]. exists x'. split; [exact Hx'|apply S].
  - rewrite fnodes_map. assert (Hi : forall p q, In p (fnodes ts) -> phi q = phi p -> q = p) by apply Hs. clear -Hn Hi.
    induction Hn as [|p k Hp Hn IH]; [constructor|]. cbn [map]. constructor; [|apply IH; intros; apply Hi; [now right|assumption]].
    intros H. apply in_map_iff in H. destruct H as (q & E & Hq). apply Hi in E; [|now left]. subst q. contradiction.
Qed.

(** ** Two heaps, two roots, any orders of map iteration: the same file
    structure and the same warnings, in some order. *)
Theorem C102_same_chunks : forall phi ev ev' place h ts m h' m',
  orders_ok ev -> orders_ok ev' -> (forall s, ev_hash ev' s = ev_hash ev s) ->
  same_metadata (ev_meta ev) (ev_meta ev') (ev_sort ev) (ev_sort ev') m m' ->
  forest_at h ts -> same_tree phi h (fnodes ts) h' ->
  match codec_encode ev place h (Some (Root (map rroot ts) m)), codec_encode ev' place h' (Some (Root (map phi (map rroot ts)) m')) with
  | OK (f, ws), OK (f', ws') => f' = f /\ Permutation ws ws'
  | Err e, Err e' => e' = e
  | Panic, Panic | Hang, Hang => True
  | _, _ => False
  end.
Proof.
  intros phi ev ev' place h ts m h' m' Hev Hev' Hhash [<- Hm] Hf Hs. pose proof (same_forest phi h h' ts Hf Hs) as Hf'.
  set (l := fnodes ts) in *.
  assert (Hheld : forall p, In p l -> exists x, hget h p = Some x) by (intros p Hp; destruct Hf; eapply forest_nodes; eauto).
  assert (Hz : ~ In 0 l) by (intros H; destruct (Hheld 0 H); discriminate).
  assert (Hl' : fnodes (map (rtmap phi) ts) = map phi l) by apply fnodes_map.
  enough (G : agree (fun a b => fst b = fst a /\ Permutation (snd a) (snd b))
     (codec_encode ev place h (Some (Root (map rroot ts) m))) (codec_encode ev' place h' (Some (Root (map phi (map rroot ts)) m)))).
  { destruct (codec_encode ev place h _) as [[f ws]|e| |], (codec_encode ev' place h' _) as [[f' ws']|e'| |];
      cbn in G; try contradiction; auto. }
  unfold codec_encode. cbn [r_instances r_metadata]. rewrite <- rroots_map, !numbering by assumption. rewrite Hl'. fold l. cbn [obind].
    rewrite (group_same phi place l h h' (sm_inst _ _ _ _ Hs) Hheld l (incl_refl _)).
    destruct (group_insts place h 0 l []) as [gs|e| |] eqn:Eg; cbn [obind agree]; try reflexivity.
    assert (Egs : sort_by fst (ev_classes ev' gs) = sort_by fst (ev_classes ev gs)).
    { pose proof (group_NoDup place h l 0 [] gs Eg (NoDup_nil _)) as Hn. destruct Hev as (Hc & _), Hev' as (Hc' & _).
      apply sort_perm_eq; [eapply Permutation_NoDup; [apply Permutation_map, Hc'|exact Hn]|]. now rewrite <- Hc, <- Hc'. }
    rewrite Egs. set (gs' := sort_by fst (ev_classes ev gs)).
    eapply agree_bind; [apply (enc_classes_same phi ev ev' place Hhash Hev Hev' l (sm_nil _ _ _ _ Hs) (sm_inj _ _ _ _ Hs) h h' (sm_inst _ _ _ _ Hs) Hheld gs' 0 [])|].
    intros [[[ws is] cs] sh] [[[ws' is'] cs'] sh'] (Hw & <- & <- & <-).
    assert (El : forall A (a : A) (b : A), match map phi l with [] => a | _ => b end = match l with [] => a | _ => b end) by (intros; now destruct l).
    rewrite El. apply (agree_bind eq).
  - apply agree_eq. destruct l as [|p0 l0] eqn:El0; [reflexivity|]. rewrite <- El0 in *.
      rewrite <- Hl'. rewrite (links_spec h' _ Hf'). unfold l. rewrite (links_spec h ts Hf). fold l.
      rewrite Hl'. f_equal. rewrite <- (sm_nil _ _ _ _ Hs) at 2. rewrite flinks_map, map_map. apply map_ext. intros [c q]. unfold nlink, num, both. cbn [fst snd].
      now rewrite !(refs_same phi l (sm_nil _ _ _ _ Hs) (sm_inj _ _ _ _ Hs)).
  - intros links ? <-. rewrite map_length. cbn [agree fst snd]. split; [|exact Hw]. f_equal. f_equal.
      destruct m as [|kv m]; [reflexivity|]. do 3 f_equal.
      destruct Hm as [Hm|[H1 H2]].
      * assert (m = []) by (destruct m; [reflexivity|cbn in Hm; lia]). subst m. destruct Hev as (_ & _ & Hc & _), Hev' as (_ & _ & Hc' & _).
        pose proof (Permutation_length_1_inv (Hc [kv])) as ->. pose proof (Permutation_length_1_inv (Hc' [kv])) as ->. reflexivity.
      * rewrite H1. unfold meta_sort. now rewrite H2.
Qed.

(** Encode returns the same bytes and the same warnings, or the same error. *)
Theorem C102_same_bytes : forall phi ev ev' lz place u h ts m h' m',
  orders_ok ev -> orders_ok ev' -> (forall s, ev_hash ev' s = ev_hash ev s) ->
  same_metadata (ev_meta ev) (ev_meta ev') (ev_sort ev) (ev_sort ev') m m' ->
  forest_at h ts -> same_tree phi h (fnodes ts) h' ->
  Encoder_Encode ev' lz place u h' (Some (Root (map phi (map rroot ts)) m')) = Encoder_Encode ev lz place u h (Some (Root (map rroot ts) m)).
Proof.
  intros phi ev ev' lz place u h ts m h' m' Hev Hev' Hhash Hm Hf Hs.
  pose proof (C102_same_chunks phi ev ev' place h ts m h' m' Hev Hev' Hhash Hm Hf Hs) as G. unfold Encoder_Encode.
  destruct (codec_encode ev place h _) as [[f ws]|e| |], (codec_encode ev' place h' _) as [[f' ws']|e'| |]; try contradiction; try reflexivity; cbn [obind].
  - now destruct G as [-> _].
  - now rewrite G.
Qed.

(** ** Copies *)
Lemma copy_same_value v : (forall f c, In (f, c) (fonts v) -> c = f) -> rcopy v = v.
Proof. apply C35_copy_equal. Qed.
Definition copy_map (h : heap) (nodes : list ptr) (p : ptr) : ptr := if (p <=? length h)%nat then clone_of h nodes p else 0.
Lemma copy_same h h' ts : wf_heap h -> forest_at h ts -> plain_fonts h (fnodes ts) -> is_copy h h' (fnodes ts) ->
  same_tree (copy_map h (fnodes ts)) h (fnodes ts) h'.
Proof.
  intros Hwf Hf Hfont (_ & _ & Hc). pose proof Hf as [Ht Hn]. set (l := fnodes ts) in *.
  assert (Hle : forall p, In p l -> 1 <= p <= length h).
  { intros p Hp. destruct (forest_nodes h ts Ht p Hp) as [x Hx]. now apply hget_some in Hx. }
  assert (Hcm : forall p, p <= length h -> copy_map h l p = clone_of h l p).
  { intros p Hp. unfold copy_map. destruct (Nat.leb_spec p (length h)); [reflexivity|lia]. }
  constructor.
  - rewrite Hcm by lia. unfold clone_of. destruct (index_of 0 l) as [j|] eqn:E; [|reflexivity]. exfalso.
    enough (In 0 l) as H by (apply Hle in H; lia). clear -E. revert j E. induction l as [|q l IH]; cbn [index_of]; [discriminate|]. intros j E.
    destruct (Nat.eqb_spec q 0) as [->|]; [now left|]. right. destruct (index_of 0 l) as [i|]; [eapply IH; reflexivity|discriminate].
  - intros p q Hp E. pose proof (Hle p Hp) as Hp1. rewrite (Hcm p) in E by lia. pose proof (C31_disjoint h l p Hp) as Hd. unfold copy_map in E.
    destruct (Nat.leb_spec q (length h)) as [Hq|Hq]; [|lia]. 
    destruct (in_dec Nat.eq_dec q l) as [Hql|Hql]; [symmetry; eapply (C31_injective h l); eauto|].
    unfold clone_of at 1 in E. destruct (index_of q l) as [j|] eqn:Ej; [|lia]. exfalso. apply Hql.
    apply (index_of_pairs (length h)) in Ej. apply pairs_range in Ej. tauto.
  - intros p x Hp Hx. destruct (Hc p x Hp Hx) as (_ & x' & _ & A & B & C & _ & D & F). rewrite Hcm by (apply Hle; exact Hp). exists x'. split; [exact A|].
    assert (Hval : forall name v, mfind (i_props x) name = Some v -> same_value (copy_map h l) v (copied_value h l v)).
    { intros name v Hv. assert (Hr : rcopy v = v) by (apply copy_same_value; intros f c; eapply Hfont; eauto).
      destruct v; cbn [copied_value]; try rewrite Hr; try (constructor; intros; discriminate).
      destruct (Hwf p x Hx) as [_ W]. apply mfind_In, W in Hv. rewrite <- (Hcm p0) by exact Hv. constructor. }
    constructor; auto.
    + rewrite D. apply map_ext_in. intros q Hq. symmetry. apply Hcm. apply Hle. exact (PropXmlResave.forest_kids h ts Ht p x q Hp Hx Hq).
    + intros name v Hv. exists (copied_value h l v). split; [now rewrite F, Hv|]. eapply Hval; eauto.
    + intros name Hv. now rewrite F, Hv.
Qed.
(** A copy made by Root.Copy is written as the original is, without metadata,
    which Root.Copy does not copy. *)
Theorem C102_copy : forall ev ev' lz place u h ts md rnd ord k fuel r' h',
  orders_ok ev -> orders_ok ev' -> (forall s, ev_hash ev' s = ev_hash ev s) ->
  wf_heap h -> forest_at h ts -> any_order ord -> list_height ts <= fuel -> plain_fonts h (fnodes ts) ->
  Root_Copy fuel rnd ord k h (Root (map rroot ts) md) = OK (r', h') ->
  Encoder_Encode ev' lz place u h' (Some r') = Encoder_Encode ev lz place u h (Some (Root (map rroot ts) [])).
Proof.
  intros ev ev' lz place u h ts md rnd ord k fuel r' h' Hev Hev' Hhash Hwf Hf Hord Hfuel Hfont E.
  pose proof (C31_root_copy h ts md rnd ord k fuel Hwf Hf Hord Hfuel) as G. rewrite E in G. destruct G as [Hr Hc].
  assert (Er : r' = Root (map (copy_map h (fnodes ts)) (map rroot ts)) []).
  { pose proof (C31_metadata_always_dropped _ _ _ _ _ _ _ _ E) as Hmd. destruct r' as [is m']. cbn [r_instances r_metadata] in *. subst is m'. f_equal.
    apply map_ext_in. intros p Hp. unfold copy_map. destruct (Nat.leb_spec p (length h)) as [_|Hlt]; [reflexivity|]. exfalso.
    apply in_map_iff in Hp. destruct Hp as (t & <- & Ht). destruct Hf as [Hf _]. rewrite Forall_forall in Hf. pose proof (Hf t Ht) as Hi.
    inversion Hi as [q us x Hx _ _]; subst. apply hget_some in Hx. cbn [rroot] in Hlt. lia. }
  rewrite Er. apply C102_same_bytes; auto.
  - split; [reflexivity|]. left. cbn. lia.
  - now apply copy_same.
Qed.


(** ** Concrete cases *)
(** The tree of PropCodecEx.v at other addresses, its property maps in the
    other order, with other reference strings. *)
Definition flip (p : ptr) : ptr := if (p =? 0)%nat || (5 <? p)%nat then p else 6 - p.
Definition flip_value (v : rvalue) : rvalue := match v with RReference p => RReference (flip p) | v => v end.
Definition flip_inst (x : inst) : inst :=
  Inst (i_class x) (str "R") (i_service x) (rev (map (fun kv => (fst kv, flip_value (snd kv))) (i_props x))) (map flip (i_children x)).
Definition flip_heap : heap := rev (map flip_inst ex_heap).
Lemma flip_same : same_tree flip ex_heap (fnodes ex_ts) flip_heap.
Proof.
  constructor.
  - reflexivity.
  - intros p q Hp. assert (1 <= p <= 5) by (cbn in Hp; lia). unfold flip.
    destruct (Nat.eqb_spec p 0), (Nat.eqb_spec q 0), (Nat.ltb_spec 5 p), (Nat.ltb_spec 5 q); cbn [orb]; lia.
  - intros p x Hp Hx. assert (Hx' : hget flip_heap (flip p) = Some (flip_inst x)) by (cbn in Hp; repeat destruct Hp as [<-|Hp]; try contradiction; injection Hx as <-; reflexivity).
    exists (flip_inst x). split; [exact Hx'|].
    assert (Hn : NoDup (map fst (i_props x))).
    { cbn in Hp. repeat destruct Hp as [<-|Hp]; try contradiction; injection Hx as <-; repeat (apply NoDup_cons; [cbn; intuition discriminate|]); apply NoDup_nil. }
    assert (Hfind : forall name, mfind (i_props (flip_inst x)) name = option_map flip_value (mfind (i_props x) name)).
    { intros name. unfold flip_inst. cbn [i_props]. rewrite <- (mfind_perm (map (fun kv => (fst kv, flip_value (snd kv))) (i_props x))).
      - induction (i_props x) as [|[k v] l IH]; [reflexivity|]. cbn [map mfind fst snd]. destruct (bytes_eqb k name); [reflexivity|]. apply IH. now inversion Hn.
      - rewrite map_map. exact Hn.
      - apply Permutation_rev. }
    constructor; try reflexivity.
    + intros name v Hv. exists (flip_value v). split; [now rewrite Hfind, Hv|]. destruct v; try (constructor; intros; discriminate).
    + intros name Hv. now rewrite Hfind, Hv.
Qed.
Example C102_witness : orders_ok ex_env /\ orders_ok ex_rev /\ forest_at ex_heap ex_ts /\ same_tree flip ex_heap (fnodes ex_ts) flip_heap /\
  flip_heap <> ex_heap /\
  exists ws b, Encoder_Encode ex_env toy_lz true false ex_heap (Some (Root [1; 5] [(str "k", str "v")])) = OK (ws, b) /\ 32 < length b /\
    Encoder_Encode ex_rev toy_lz true false flip_heap (Some (Root [5; 1] [(str "k", str "v")])) = OK (ws, b).
Proof.
  split; [exact ex_orders|]. split; [exact ex_orders_rev|]. split; [exact ex_forest|]. split; [exact flip_same|]. split; [discriminate|].
  do 2 eexists. split; [vm_compute; reflexivity|]. split; [apply Nat.ltb_lt; vm_compute; reflexivity|vm_compute; reflexivity].
Qed.
(** A copy of a tree with references, and one with a font that is not plain. *)
Definition copied_heap : heap :=
  [Inst (str "Folder") (str "a") false [(str "Self", RReference 1); (str "Kid", RReference 2); (str "Out", RReference 3)] [2];
   Inst (str "Part") (str "b") true [(str "Blob", RSharedString (str "abc")); (str "Font", RFont (str "F") 400 x01 (str "F"))] [];
   Inst (str "Other") [] false [] []].
Lemma copied_wf : wf_heap copied_heap.
Proof.
  intros [|[|[|[|p]]]] i H; try discriminate H; try (destruct p; discriminate H); injection H as <-; cbn [i_props copied_heap length map fst].
  - split; [|intros nm x Hi; cbn in Hi; repeat destruct Hi as [Hi|Hi]; try (injection Hi as _ <-; lia); try discriminate Hi; destruct Hi].
    repeat (apply NoDup_cons; [cbn; intuition discriminate|]). apply NoDup_nil.
  - split; [|intros nm x Hi; cbn in Hi; repeat destruct Hi as [Hi|Hi]; try (injection Hi as _ <-; lia); try discriminate Hi; destruct Hi].
    repeat (apply NoDup_cons; [cbn; intuition discriminate|]). apply NoDup_nil.
  - split; [apply NoDup_nil|intros nm x []].
Qed.
Lemma copied_forest : forest_at copied_heap [RNode 1 [RNode 2 []]].
Proof.
  split; [repeat (econstructor; try reflexivity)|]. repeat (apply NoDup_cons; [cbn; intuition discriminate|]). apply NoDup_nil.
Qed.
Lemma copied_fonts : plain_fonts copied_heap (fnodes [RNode 1 [RNode 2 []]]).
Proof.
  intros p x name v f c Hp Hx Hv. apply mfind_In in Hv. cbn in Hp. destruct Hp as [<-|[<-|[]]]; injection Hx as <-; cbn in Hv;
    repeat destruct Hv as [Hv|Hv]; try contradiction; injection Hv as <- <-; cbn; try contradiction. intros [[= <- <-]|[]]. reflexivity.
Qed.
Example C102_copy_witness : wf_heap copied_heap /\ forest_at copied_heap [RNode 1 [RNode 2 []]] /\ plain_fonts copied_heap (fnodes [RNode 1 [RNode 2 []]]) /\
  exists r' h' ws b, Root_Copy 3 counter (fun _ l => l) 0 copied_heap (Root [1] []) = OK (r', h') /\ r_instances r' = [4] /\
    Encoder_Encode ex_env toy_lz false true copied_heap (Some (Root [1] [])) = OK (ws, b) /\ 32 < length b /\
    Encoder_Encode ex_env toy_lz false true h' (Some r') = OK (ws, b).
Proof.
  split; [exact copied_wf|]. split; [exact copied_forest|]. split; [exact copied_fonts|]. do 4 eexists.
  split; [vm_compute; reflexivity|]. split; [reflexivity|]. split; [vm_compute; reflexivity|]. split; [apply Nat.ltb_lt; vm_compute; reflexivity|vm_compute; reflexivity].
Qed.
(** Copying a font forgets its cached face, and the file changes. *)
Theorem C102_font_refuted : exists h r r' h' b b', wf_heap h /\ forest_at h [RNode 1 []] /\ r = Root [1] [] /\
  Root_Copy 2 counter (fun _ l => l) 0 h r = OK (r', h') /\
  Encoder_Encode ex_env toy_lz false true h (Some r) = OK ([], b) /\ Encoder_Encode ex_env toy_lz false true h' (Some r') = OK ([], b') /\ b' <> b.
Proof.
  exists [Inst (str "T") (str "a") false [(str "Font", RFont (str "F") 400 x01 (str "G"))] []]. do 5 eexists.
  split.
  { intros [|[|[|p]]] i H; try discriminate H. injection H as <-. cbn. split; [repeat constructor; easy|]. intros n x [[=]|[]]. }
  split; [split; [repeat (econstructor; try reflexivity)|]; repeat (apply NoDup_cons; [cbn; intuition discriminate|]); apply NoDup_nil|].
  split; [reflexivity|]. split; [vm_compute; reflexivity|]. split; [vm_compute; reflexivity|]. split; [vm_compute; reflexivity|]. vm_compute. discriminate.
Qed.
(** Two metadata entries are written in an order that depends on the map. *)
Theorem C102_metadata_refuted : exists r b b', Encoder_Encode ex_env toy_lz false true [] (Some r) = OK ([], b) /\
  Encoder_Encode ex_rev toy_lz false true [] (Some r) = OK ([], b') /\ b' <> b.
Proof.
  exists (Root [] [(str "a", str "z"); (str "b", str "z")]). do 2 eexists.
  split; [vm_compute; reflexivity|]. split; [vm_compute; reflexivity|]. vm_compute. discriminate.
Qed.
Print Assumptions C102_same_chunks.
Print Assumptions C102_same_bytes.
Print Assumptions C102_copy.
Print Assumptions C102_font_refuted.
Print Assumptions C102_metadata_refuted.
