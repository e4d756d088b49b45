(** PropXmlContents.v - C76: the contents of a decoded XML tree. *)
From Verif Require Import Base RbxlValues RbxValues Tree SpecTree XmlText XmlDoc XmlTotal XmlCodec SpecXmlText SpecXmlRead SpecXmlDecode SpecXmlTree
  TreeProofs RbxlFileProofs RbxlCodecEnc XmlLayout XmlGrammar XmlTreeEnc XmlReadProofs XmlReadValues PropXmlDecode PropXmlRead XmlTreeRead XmlTreeWrites.
Local Notation string := String.string.

(** ** Instances in order *)
Lemma all_items_item t : is_item t = true -> all_items t = t :: flat_map all_items (item_tags (t_tags t)).
Proof.
  intros H. assert (E : forall l, flat_map all_items l = flat_map all_items (item_tags l)).
  { induction l as [|u l IH]; [reflexivity|]. cbn [flat_map item_tags filter]. rewrite IH. destruct (is_item u) eqn:Eu; [reflexivity|].
    assert (Z : all_items u = []) by (destruct u; cbn [all_items]; now rewrite Eu). now rewrite Z. }
  destruct t as [start end_ attr empty comment cdata tx noind tags]. cbn [all_items t_tags]. rewrite H. now rewrite E.
Qed.
Lemma doc_items_items l : doc_items l = flat_map all_items (item_tags l).
Proof.
  unfold doc_items. induction l as [|u l IH]; [reflexivity|]. cbn [flat_map item_tags filter]. rewrite IH. destruct (is_item u) eqn:Eu; [reflexivity|].
  assert (Z : all_items u = []) by (destruct u; cbn [all_items]; now rewrite Eu). now rewrite Z.
Qed.
Lemma Forall2_length_flat (h : heap) us trs : Forall2 (fun u tr => length (all_items u) = length (rnodes tr)) us trs -> length (flat_map all_items us) = length (fnodes trs).
Proof. unfold fnodes. induction 1 as [|u tr us trs H _ IH]; [reflexivity|]. cbn [flat_map]. rewrite !app_length. lia. Qed.
Lemma built_length h tr : forall t, is_item t = true -> built h t tr -> length (all_items t) = length (rnodes tr).
Proof.
  induction tr as [p ts IH] using rtree_ind'. intros t Ht H. rewrite (all_items_item _ Ht), rnodes_node. cbn [length]. f_equal.
  inversion H as [? class i ? ? E1 E2 E3 E4 E5 E6 E7 E8]; subst. apply (Forall2_length_flat h). clear - IH E8.
  assert (F : Forall (fun u => is_item u = true) (item_tags (t_tags t))) by (apply Forall_forall; intros u Hu; now apply filter_In in Hu).
  revert IH F. induction E8 as [|u tr us trs Hu _ IHl]; intros IH F; [constructor|]. inversion IH; inversion F; subst. constructor; auto.
Qed.
Lemma Forall2_cut {A B} (P : A -> B -> Prop) a a' b b' : length a = length b -> Forall2 P (a ++ a') (b ++ b') -> Forall2 P a b /\ Forall2 P a' b'.
Proof.
  revert b. induction a as [|x a IH]; intros [|y b] L H; cbn in L; try discriminate L; [now split|]. cbn [app] in H. inversion H; subst.
  destruct (IH b) as [H1 H2]; [lia|assumption|]. split; [now constructor|exact H2].
Qed.
Lemma built_described h P tr : forall t, is_item t = true -> built h t tr -> Forall2 (fun u p => exists i, hget h p = Some i /\ P u i) (all_items t) (rnodes tr) -> described h P t tr.
Proof.
  induction tr as [p ts IH] using rtree_ind'. intros t Ht H F. rewrite (all_items_item _ Ht), rnodes_node in F. inversion F as [|? ? ? ? (i & Hi & Pi) F']; subst.
  inversion H as [? class i' ? ? E1 E2 E3 E4 E5 E6 E7 E8]; subst. rewrite Hi in E2. apply Some_eq in E2. subst i'.
  apply (Described h P t (i_class i) i); try assumption; try reflexivity.
  assert (G : Forall (fun u => is_item u = true) (item_tags (t_tags t))) by (apply Forall_forall; intros u Hu; now apply filter_In in Hu).
  clear - IH E8 F' G. unfold fnodes in F'. revert IH F' G. induction E8 as [|u tr us trs Hu _ IHl]; intros IH F' G; [constructor|].
  inversion IH as [|? ? I1 I2]; inversion G as [|? ? G1 G2]; subst. cbn [flat_map] in F'. apply Forall2_cut in F' as [F1 F2]; [|now apply (built_length h)].
  constructor; [now apply I1|now apply IHl].
Qed.
Lemma builts_described h P us : Forall (fun u => is_item u = true) us -> forall trs, Forall2 (built h) us trs ->
  Forall2 (fun u p => exists i, hget h p = Some i /\ P u i) (flat_map all_items us) (fnodes trs) -> Forall2 (described h P) us trs.
Proof.
  intros G trs B. unfold fnodes. revert G. induction B as [|u tr us trs Hu _ IH]; intros G F; [constructor|]. inversion G as [|? ? G1 G2]; subst.
  cbn [flat_map] in F. apply Forall2_cut in F as [F1 F2]; [|now apply (built_length h)]. constructor; [now apply built_described|now apply IH].
Qed.
Lemma Forall2_seq {A} (P : A -> nat -> Prop) l : forall n, (forall k u, nth_error l k = Some u -> P u (n + k)) -> Forall2 P l (seq n (length l)).
Proof.
  induction l as [|x l IH]; intros n H; [constructor|]. cbn [length seq]. constructor; [specialize (H 0 x eq_refl); now rewrite Nat.add_0_r in H|].
  apply IH. intros k u Hk. specialize (H (S k) u Hk). now rewrite Nat.add_succ_r in H.
Qed.

(** ** What is in every instance *)
Section Read.
Variables (env : xenv) (discard : bool).
Definition root_of (d : doc) : list tag := match doc_root d with Some t => t_tags t | None => [] end.
Lemma codec_contents d r h ws : codec_read env discard d = OK (r, h, ws) ->
  length h = length (doc_items (root_of d)) /\ r_metadata r = msets [] (flat_map meta_of (root_of d)) /\
  forall k u, nth_error (doc_items (root_of d)) k = Some u -> exists i, hget h (S k) = Some i /\ i_props i = final_props env discard (root_of d) (prop_tags u).
Proof.
  unfold codec_read, root_of. destruct (doc_root d) as [t|].
  2:{ intros E. injection E as <- <- _. split; [reflexivity|]. split; [reflexivity|]. intros [|k] u H; discriminate H. }
  intros E. apply bind_OK in E as ([[insts props] s] & E1 & E). unfold getItems in E1.
  apply items_step in E1 as [[A1 A2 A3 A4 A5 A6] _]; [|apply Forall_forall; intros; apply item_steps|cbn; lia].
  cbn [rd_heap rd_look rd_props rd_strs length] in *. rewrite root_tags_puts in E. rewrite resolve_puts in E. injection E as <- <- _. cbn [r_metadata].
  split; [|split; [reflexivity|]].
  - rewrite <- puts_app. transitivity (length (rd_heap s)); [|exact A1]. generalize (flat_map (shared_write (rd_strs s)) (defs_of (t_tags t)) ++ map (fun e => (pr_inst e, pr_prop e, RReference (rget (rd_look s) (pr_ref e)))) (rd_props s)). intros W.
    generalize (rd_heap s). induction W as [|w W IH]; intros g; [reflexivity|]. cbn [puts fold_left]. change (length (puts (put g w) W) = length g). rewrite IH. unfold put, set_prop. destruct (hget g _); [apply hset_length|reflexivity].
  - intros k u H. destruct (A3 k u H) as (i & Hi & Ei). cbn [Nat.add] in Hi. rewrite <- puts_app. eexists. split; [apply puts_get; exact Hi|]. cbn [set_props i_props].
    rewrite Ei, put_plain_msets, <- msets_app. unfold final_props. f_equal. f_equal. rewrite for_app, for_shared, for_resolved, A5, A6, A4.
    change (S k =? 0)%nat with false. cbv iota. assert (Hit : item_at 0 (doc_items (t_tags t)) (S k) = prop_tags u) by (unfold item_at; cbn [Nat.leb Nat.sub]; now rewrite Nat.sub_0_r, H). rewrite Hit.
    cbn [at_ filter app]. rewrite at_point_writes. f_equal.
    induction (defs_of (t_tags t)) as [|x l IH]; [reflexivity|]. cbn [flat_map]. now rewrite at_shared_writes, IH.
Qed.
End Read.
Theorem C76_contents : forall env discard input end_ r h ws,
  xml_decode env discard input end_ = OK (r, h, ws) ->
  exists d ts defs, ReadFrom input end_ = OK d /\ let root := match doc_root d with Some t => t_tags t | None => [] end in
    r_instances r = map rroot ts /\ fnodes ts = seq 1 (length h) /\ shared_strings root defs /\
    (forall k v, In (k, v) (r_metadata r) <-> metadata root k v) /\
    Forall2 (described h (fun t i => forall n v, In (n, v) (i_props i) <->
      property (fun typ t v => exists w, getValue env discard t typ = OK (Some v, w)) root defs (prop_tags t) n v)) (item_tags root) ts.
Proof.
  intros env discard input end_ r h ws E. destruct (C54_decode_forest _ _ _ _ _ _ _ E) as (d & ts & Ed & R & _ & F & _ & B).
  unfold xml_decode in E. rewrite Ed in E. destruct (codec_read env discard d) as [[[r' h'] ws']|[]| |] eqn:Ec; try discriminate E. injection E as -> -> ->.
  apply codec_contents in Ec as (L & M & C). unfold root_of in *. set (root := match doc_root d with Some t => t_tags t | None => [] end) in *.
  exists d, ts, (defs_of root). split; [exact Ed|]. cbv zeta. fold root. split; [exact R|]. split; [exact F|]. split; [now apply shared_strings_iff|].
  split; [intros k v; rewrite M; apply metadata_iff|].
  apply builts_described; [apply Forall_forall; intros u Hu; now apply filter_In in Hu|exact B|]. rewrite F, L, <- doc_items_items. apply Forall2_seq. intros k u Hk. cbn [Nat.add].
  destruct (C k u Hk) as (i & Hi & Ei). exists i. split; [exact Hi|]. intros n v. rewrite Ei. apply final_property.
Qed.

(** ** The meaning of the values *)
Section Ext.
Variables (R R' : Type_ -> tag -> rvalue -> Prop).
Hypothesis RR : forall typ t v, R typ t v <-> R' typ t v.
Lemma gives_ext t n e : gives R t n e <-> gives R' t n e.
Proof.
  split; (intros [typ v N T N1 N2 H|c N T C E|c N T C E|k N T H|r u v N O T F H|r typ N O T F|r N O T F];
    [apply (G_value _ _ _ typ); auto; now apply RR|eapply G_no_ref; eauto|eapply G_ref; eauto|apply G_shared; auto; now apply RR|eapply G_some; eauto; now apply RR|eapply G_none; eauto|eapply G_none_unknown; eauto]).
Qed.
Lemma last_gives_ext pts n P e : last_gives R pts n P e <-> last_gives R' pts n P e.
Proof.
  unfold last_gives. split; intros (H & a & t & b & E & G & N); (split; [exact H|]); exists a, t, b; (split; [exact E|]); (split; [now apply gives_ext|]); intros u e' I G'; apply (N u); auto; now apply gives_ext.
Qed.
Lemma gives_none_ext pts n P : gives_none R pts n P <-> gives_none R' pts n P.
Proof. unfold gives_none. split; intros N u e I G; apply (N u e I); now apply gives_ext. Qed.
Lemma wants_key_ext pts n k : wants_key R pts n k <-> wants_key R' pts n k.
Proof. unfold wants_key. split; intros (u & I & G); exists u; (split; [exact I|now apply gives_ext]). Qed.
Lemma property_ext root defs pts n v : property R root defs pts n v <-> property R' root defs pts n v.
Proof.
  split; (intros [r q G T|a k w b N E W L|w N K G];
   [apply (P_reference _ _ _ _ _ r); [now apply last_gives_ext|exact T]
   |apply (P_shared _ _ _ _ _ a k w b); [now apply gives_none_ext|exact E|now apply wants_key_ext|intros k' v' I W'; apply (L k' v' I); now apply wants_key_ext]
   |apply P_plain; [now apply gives_none_ext|intros k' v' I W'; apply (K k' v' I); now apply wants_key_ext|now apply last_gives_ext]]).
Qed.
Lemma described_mono h (P Q : tag -> inst -> Prop) tr : (forall t i, P t i -> Q t i) -> forall t, described h P t tr -> described h Q t tr.
Proof.
  intros PQ. induction tr as [p ts IH] using rtree_ind'. intros t H. inversion H as [? class i ? ? E1 E2 E3 E4 E5 E6 E7 E8]; subst.
  apply (Described h Q t (i_class i) i); auto. clear - IH E8. revert IH. induction E8 as [|u tr us trs Hu _ IHl]; intros IH; [constructor|]. inversion IH as [|? ? I1 I2]; subst. constructor; [now apply I1|now apply IHl].
Qed.
End Ext.
Theorem C76_discard : forall env input end_ r h ws,
  xml_decode env true input end_ = OK (r, h, ws) ->
  exists d ts defs, ReadFrom input end_ = OK d /\ let root := match doc_root d with Some t => t_tags t | None => [] end in
    r_instances r = map rroot ts /\ fnodes ts = seq 1 (length h) /\ shared_strings root defs /\
    (forall k v, In (k, v) (r_metadata r) <-> metadata root k v) /\
    Forall2 (described h (fun t i => forall n v, In (n, v) (i_props i) <->
      property (means (fl_parse32 (xe_fl env)) (fl_parse64 (xe_fl env)) (xe_div255 env)) root defs (prop_tags t) n v)) (item_tags root) ts.
Proof.
  intros env input end_ r h ws E. destruct (C76_contents _ _ _ _ _ _ _ E) as (d & ts & defs & Ed & H). exists d, ts, defs. split; [exact Ed|]. cbv zeta in *.
  destruct H as (H1 & H2 & H3 & H4 & H5). do 4 (split; [assumption|]). eapply Forall2_impl; [|exact H5]. cbn beta. intros t tr Hd. eapply described_mono; [|exact Hd]. cbn beta.
  intros u i Hi n v. rewrite Hi. apply property_ext. intros typ w x. apply C75_value.
Qed.
(** The shared strings of a document are unique. *)
Theorem C76_shared_unique : forall ts l l', shared_strings ts l -> shared_strings ts l' -> l = l'.
Proof. intros ts l l' H H'. apply shared_strings_iff in H, H'. congruence. Qed.
(** Two values for one property of one instance are not described. *)
Theorem C76_property_unique : forall env discard root defs pts n v w, shared_strings root defs ->
  property (fun typ t v => exists w, getValue env discard t typ = OK (Some v, w)) root defs pts n v ->
  property (fun typ t v => exists w, getValue env discard t typ = OK (Some v, w)) root defs pts n w -> v = w.
Proof.
  intros env discard root defs pts n v w D H H'. apply shared_strings_iff in D as ->. apply final_property in H, H'. unfold final_props in *.
  rewrite In_iff_mfind in H, H' by (apply msets_keys; constructor). congruence.
Qed.

(** A document with a property written three times, references, shared
    strings and metadata. *)
Definition c76_bytes : bytes := str
  "<roblox version=""4""><Meta name=""m"">1</Meta><Meta name=""m"">2</Meta><Item class=""A"" referent=""R1""><Properties><Ref name=""p"">R1</Ref><Ref name=""p"">R2</Ref><string name=""p"">late</string><string name=""q"">a</string><string name=""q"">b</string><SharedString name=""s"">Zg==</SharedString><OptionalThing name=""o""></OptionalThing><Ref name=""z"">nobody</Ref></Properties></Item><Item class=""B"" referent=""R2""></Item><Item class=""C"" referent=""R2""></Item><SharedStrings><SharedString md5=""Zg=="">Zm9v</SharedString></SharedStrings></roblox>".
(** The reference wins over the text that comes after it, and the last Item
    with a referent over the ones before. *)
Example C76_example : forall discard, exists h ws, xml_decode plain_env discard c76_bytes XEOF = OK (Root [1; 2; 3] [(str "m", str "2")], h, ws) /\ option_map i_props (hget h 1) = Some [(str "p", RReference 3); (str "q", RString (str "b")); (str "o", ROptional TypeInvalid None); (str "s", RSharedString (str "foo")); (str "z", RReference 0)].
Proof. intros []; eexists _, _; (split; [vm_compute; reflexivity|vm_compute; reflexivity]). Qed.
