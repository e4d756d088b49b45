(** PropXmlResave.v - saving a loaded XML file again. *)
From Coq Require Import Permutation Relations.
From Verif Require Import Base RbxlValues RbxValues Tree RbxlCodec SpecValues SpecTree SpecCodec SortProofs TreeProofs RbxlFileProofs
  XmlText XmlDoc XmlCodec SpecXml SpecXmlValues XmlTextProofs XmlLayout XmlFloats XmlFloatsFit XmlTreeEnc XmlRound XmlTreeWrites
  RbxlCodecEnc PropXml PropXmlValues PropXmlDecode PropXmlKept XmlResave SpecXmlResave XmlRetext.
Local Notation string := String.string.

(** ** Lists *)
Lemma NoDup_of_keys {A} (l : list (bytes * A)) : NoDup (map fst l) -> NoDup l.
Proof. apply NoDup_map_inv. Qed.
Lemma same_find_perm {A} (l l' : list (bytes * A)) : NoDup (map fst l) -> NoDup (map fst l') -> (forall k, mfind l k = mfind l' k) -> Permutation l l'.
Proof.
  intros N N' H. apply NoDup_Permutation; [now apply NoDup_of_keys|now apply NoDup_of_keys|]. intros [k v]. split; intros Hin.
  - apply mfind_In. rewrite <- H. now apply In_mfind.
  - apply mfind_In. rewrite H. now apply In_mfind.
Qed.
Lemma insert_moved g a l : insert_by fst (with_value g a) (map (with_value g) l) = map (with_value g) (insert_by fst a l).
Proof. induction l as [|b l IH]; [reflexivity|]. cbn [map insert_by]. cbn [with_value fst]. destruct (bytes_ltb _ _); cbn [map]; rewrite ?IH; reflexivity. Qed.
Lemma sort_moved g l : sort_by fst (map (with_value g) l) = map (with_value g) (sort_by fst l).
Proof. unfold sort_by. induction l as [|a l IH]; [reflexivity|]. cbn [map fold_right]. rewrite IH. apply insert_moved. Qed.
Lemma map_moved_find g l k : mfind (map (with_value g) l) k = option_map g (mfind l k).
Proof. induction l as [|[n v] l IH]; [reflexivity|]. cbn [map with_value mfind fst snd]. destruct (bytes_eqb _ _); [reflexivity|exact IH]. Qed.
Lemma moved_keys g (l : list (bytes * rvalue)) : map fst (map (with_value g) l) = map fst l.
Proof. rewrite map_map. reflexivity. Qed.
(** What the decoder makes of a value. *)
Definition becomes (fl : floats) (discard : bool) (phi : ptr -> ptr) (v : rvalue) : rvalue :=
  match xml_prop fl discard false phi v with Some w => w | None => v end.
Lemma text_readable fl v : text_kept (text6 fl) (text9 fl) v -> exists w, xml_value fl v = Some w.
Proof.
  intros H. destruct v; cbn [text_kept xml_value] in *; try (eexists; reflexivity).
  - destruct custom; eexists; reflexivity.
  - destruct v as [v|]; [destruct v|]; eexists; reflexivity.
  - destruct H as (_ & _ & H1 & H2). destruct (N.ltb_spec weight (2 ^ 15)); [|lia]. apply style_01 in H2. rewrite H2. eexists; reflexivity.
Qed.
Lemma becomes_prop fl discard phi v : text_kept (text6 fl) (text9 fl) v -> xml_prop fl discard false phi v = Some (becomes fl discard phi v).
Proof.
  intros H. unfold becomes. destruct (xml_prop fl discard false phi v) eqn:E; [reflexivity|]. exfalso. destruct (text_readable fl v H) as [w W].
  destruct v; cbn [xml_prop] in E; try discriminate E; unfold xml_value_or in E; rewrite W in E; discriminate E.
Qed.
Lemma becomes_text env discard phi v : strconv_ok (xe_fl env) -> wf_rvalue v -> text_kept (text6 (xe_fl env)) (text9 (xe_fl env)) v ->
  becomes (xe_fl env) discard phi v = moved phi v \/ one_tag env v (becomes (xe_fl env) discard phi v).
Proof.
  intros SC Hw Hk. assert (D : (match v with RReference _ | RSharedString _ => True | _ => False end) \/ self_contained v) by (destruct v; cbn; tauto).
  destruct D as [D|D]; [left; destruct v; try contradiction; reflexivity|]. right. destruct (text_readable _ v Hk) as [w W].
  assert (E : becomes (xe_fl env) discard phi v = w) by (unfold becomes; destruct v; cbn [self_contained] in D; try contradiction; cbn [xml_prop]; unfold xml_value_or; now rewrite W).
  rewrite E. now apply retext.
Qed.
(** An injection of a list into 1..n of the same length reaches all. *)
Lemma onto (f : ptr -> ptr) l : NoDup l -> (forall p q, In p l -> In q l -> f p = f q -> p = q) -> (forall p, In p l -> 1 <= f p <= length l) ->
  forall q, 1 <= q <= length l -> exists p, In p l /\ f p = q.
Proof.
  intros N I R q Hq. assert (N' : NoDup (map f l)).
  { clear R Hq. induction N as [|p l Hp N IH]; [constructor|]. cbn. constructor.
    - intros Hin. apply in_map_iff in Hin as (p' & E & Hp'). apply Hp. rewrite (I p p'); [exact Hp'|now left|now right|congruence].
    - apply IH. intros a b Ha Hb. apply I; now right. }
  assert (Hin : In q (map f l)).
  { apply (NoDup_length_incl N' (l' := seq 1 (length l))); [now rewrite seq_length, map_length| |apply in_seq; lia].
    intros x Hx. apply in_map_iff in Hx as (p & <- & Hp). apply in_seq. specialize (R p Hp). lia. }
  apply in_map_iff in Hin as (p & <- & Hp). now exists p.
Qed.
(** ** Trees *)
Lemma fnodes_in ts t : In t ts -> incl (rnodes t) (fnodes ts).
Proof. intros H p Hp. apply in_flat_map. now exists t. Qed.
Lemma root_in_nodes t : In (rroot t) (rnodes t).
Proof. destruct t. now left. Qed.
Lemma roots_in ts p : In p (map rroot ts) -> In p (fnodes ts).
Proof. intros H. apply in_map_iff in H as (t & <- & Ht). apply (fnodes_in ts t Ht). apply root_in_nodes. Qed.
Lemma tree_kids_in h t : tree_at h t -> forall p x q, In p (rnodes t) -> hget h p = Some x -> In q (i_children x) -> In q (rnodes t).
Proof.
  induction t as [r ts IH] using rtree_ind'. intros H p x q Hp Hx Hq. inversion H as [? ? i E1 E2 E3]; subst.
  change (rnodes (RNode r ts)) with (r :: fnodes ts) in *. destruct Hp as [<-|Hp].
  - right. rewrite E1 in Hx. apply Some_eq in Hx. subst x. rewrite E2 in Hq. now apply roots_in.
  - right. apply in_flat_map in Hp as (t & Ht & Hp). rewrite Forall_forall in IH, E3. apply (fnodes_in ts t Ht). apply (IH t Ht (E3 t Ht) p x q Hp Hx Hq).
Qed.
Lemma forest_kids h ts : Forall (tree_at h) ts -> forall p x q, In p (fnodes ts) -> hget h p = Some x -> In q (i_children x) -> In q (fnodes ts).
Proof.
  intros H p x q Hp Hx Hq. apply in_flat_map in Hp as (t & Ht & Hp). rewrite Forall_forall in H. apply (fnodes_in ts t Ht). exact (tree_kids_in h t (H t Ht) p x q Hp Hx Hq).
Qed.
Lemma decode_meta_keys env discard input end_ r h ws : xml_decode env discard input end_ = OK (r, h, ws) -> NoDup (map fst (r_metadata r)).
Proof.
  intros E. unfold xml_decode in E. destruct (ReadFrom input end_) as [d|e| |]; try discriminate E. unfold codec_read in E.
  destruct (doc_root d) as [t|].
  2:{ apply OK_pair' in E as [E _]. apply pair_equal_spec in E as [<- _]. constructor. }
  destruct (getItems _ _ _ _ _) as [[[insts p] s]|[]| |]; try discriminate E. cbn [obind] in E. rewrite root_tags_puts in E.
  apply OK_pair' in E as [E _]. apply pair_equal_spec in E as [<- _]. cbn [r_metadata]. apply msets_keys. constructor.
Qed.

(** ** C100: saving a loaded file *)
(** The loaded tree is written, with any options that write referents, as the
    original is; nothing of it changes. *)
Theorem C100_same_tree : forall env rnd fuel e h ts r ws out h1,
  strconv_ok (xe_fl env) -> (forall k, length (rnd k) = 16) -> never_repeats (length h) rnd ->
  forest_at h ts -> r_instances r = map rroot ts -> xml_storable h (fnodes ts) -> length h <= fuel ->
  blank (x_prefix e) -> blank (x_indent e) -> x_noroot e = false -> o_noref (x_opts e) = false ->
  no_collision (xe_hash env) h (fnodes ts) -> NoDup (map fst (r_metadata r)) -> text_tree (xe_fl env) h (fnodes ts) r ->
  xml_encode fuel env rnd e h (Some r) = OK (ws, out, h1) ->
  forall discard, exists r' h', xml_decode env discard out XEOF = OK (r', h', []) /\
    forall e2 ws2 out2 h2, o_noref (x_opts e2) = false -> (o_nometa (x_opts e2) = true \/ o_nometa (x_opts e) = false) ->
      xml_encode fuel env rnd e2 h (Some r) = OK (ws2, out2, h2) ->
      forall rnd2, xml_encode fuel env rnd2 e2 h' (Some r') = OK (ws2, out2, h').
Proof.
  intros env rnd fuel e h ts r ws out h1 SC Hrnd Hnr Hf Hroots Hst Hfuel Hp Hi Hn Hnoref Hcol Hmd [A1 A2 A3 A4] HE discard.
  pose proof (strconv_floats_ok _ SC) as Hfl.
  assert (Hmk : Forall (fun kv => no_cr (fst kv) = true) (r_metadata r)) by (apply Forall_forall; intros [k v] Hkv; exact (proj1 (A4 k v Hkv))).
  destruct (C50_roundtrip env rnd fuel e h ts r ws out h1 Hfl Hrnd Hnr Hf Hroots Hst Hfuel Hp Hi Hn Hcol Hmd Hmk HE discard XEOF) as (phi & h' & mt & D & [I1 I2 I3 I4] & Hmt).
  destruct (C49_encode_total env rnd fuel e h ts r Hfl Hrnd Hnr Hf Hroots Hst Hfuel Hp Hi Hn) as (out0 & h10 & HE0 & L1 & T1 & T2 & T3).
  rewrite HE in HE0. apply OK_pair' in HE0 as [HE0 <-]. apply pair_equal_spec in HE0 as [-> <-].
  destruct (C54_decode_forest _ _ _ _ _ _ _ D) as (d & ts' & _ & _ & _ & _ & Wf & _).
  pose proof (decode_meta_keys _ _ _ _ _ _ _ D) as Nmt. cbn [r_metadata] in Nmt.
  exists (Root (map phi (r_instances r)) mt), h'. split; [exact D|]. intros e2 ws2 out2 h2 Hnoref2 Hmeta2 HE2 rnd2.
  set (nodes := fnodes ts) in *. set (rho := fun p => match hget h1 p with Some i => i_ref i | None => [] end).
  destruct (write_list env rnd h ts (x_opts e) r Hfl Hrnd Hnr Hf Hroots Hst fuel Hfuel) as (items & s' & E & HI). rewrite Hnoref in E.
  assert (Hh : forall x w o hx, o_noref (x_opts x) = false -> xml_encode fuel env rnd x h (Some r) = OK (w, o, hx) -> hx = re_heap s' /\ exists t, codec_write env rnd fuel (x_opts x) h (Some r) = OK (t, hx)).
  { intros x w o hx Hx HEx. unfold xml_encode in HEx. apply bind_OK in HEx as ([t hh] & E1 & HEx). destruct (WriteTo _) as [w0 o0]. apply OK_pair' in HEx as [_ ->]. split; [|now exists t].
    unfold codec_write in E1. rewrite Hx, E in E1. cbn [obind] in E1. apply bind_OK in E1 as (sh & _ & E1). apply OK_pair' in E1 as [_ <-]. reflexivity. }
  destruct (Hh e [] out h1 Hnoref HE) as [Hh1 _]. destruct (Hh e2 ws2 out2 h2 Hnoref2 HE2) as [_ (t & Et)].
  assert (Zero : ~ In 0 nodes) by (intros Hin; destruct (forest_nodes h ts (proj1 Hf) 0 Hin) as [x Hx]; discriminate Hx).
  assert (Img : forall p x, In p nodes -> hget h p = Some x -> twin h' rho phi (becomes (xe_fl env) discard phi) p x).
  { intros p x Hin Hx. assert (Hxin : inst_in h nodes x) by now exists p. destruct (I4 p x Hin Hx) as (x' & y & E1 & E2 & E3 & _ & E5 & E6 & E7). rewrite Hnoref in E6.
    exists x'. assert (Er : rho p = i_ref y) by (unfold rho; now rewrite E2). rewrite Er.
    split; [exact E1|]. split; [rewrite E3; apply nl_no_cr; now apply A2|]. split; [exact E5|]. split; [exact E6|]. split; [exact (T2 p y Hin E2)|].
    rewrite <- sort_moved. destruct (xs_inst _ _ Hst x Hxin) as [_ Nx]. apply sort_perm_eq; [exact (proj1 (Wf _ _ E1))|].
    apply same_find_perm; [exact (proj1 (Wf _ _ E1))|now rewrite moved_keys|]. intros k. rewrite E7, map_moved_find. destruct (mfind (i_props x) k) as [v|] eqn:Ev; [|reflexivity].
    cbn [option_map]. rewrite Hnoref. apply becomes_prop. exact (A1 x k v Hxin Ev). }
  assert (Have : forall p, In p nodes -> exists x, hget h p = Some x) by (intros p Hin; exact (forest_nodes h ts (proj1 Hf) p Hin)).
  assert (Range : forall p, In p nodes -> 1 <= phi p <= length nodes).
  { intros p Hin. destruct (Have p Hin) as [x Hx]. destruct (Img p x Hin Hx) as (x' & E1 & _). apply hget_some in E1. rewrite I1 in E1. exact E1. }
  assert (Uniq : forall q q' x x', hget h' q = Some x -> hget h' q' = Some x' -> i_ref x = i_ref x' -> q = q').
  { intros q q' x x' Hq Hq' Er. pose proof (hget_some _ _ _ Hq) as R1. pose proof (hget_some _ _ _ Hq') as R2. rewrite I1 in R1, R2.
    destruct (onto phi nodes (proj2 Hf) I2 Range q R1) as (p & Hp1 & <-). destruct (onto phi nodes (proj2 Hf) I2 Range q' R2) as (p' & Hp2 & <-). f_equal.
    destruct (Have p Hp1) as [y Hy]. destruct (Have p' Hp2) as [y' Hy'].
    destruct (Img p y Hp1 Hy) as (z & Z1 & _ & _ & Z4 & _). destruct (Img p' y' Hp2 Hy') as (z' & Z1' & _ & _ & Z4' & _).
    rewrite Hq in Z1. apply Some_eq in Z1. subst z. rewrite Hq' in Z1'. apply Some_eq in Z1'. subst z'.
    destruct (T1 p y Hy) as (w & W & _). destruct (T1 p' y' Hy') as (w' & W' & _). apply (T3 p p' w w' Hp1 Hp2 W W').
    unfold rho in Z4, Z4'. rewrite W in Z4. rewrite W' in Z4'. congruence. }
  unfold xml_encode in *. rewrite Et in HE2. cbn [obind] in HE2.
  rewrite (write_both env rnd rnd2 h h' nodes rho phi (becomes (xe_fl env) discard phi) Img Have Uniq (I3 0 Zero)) with (r := r) (t := t) (h1 := h2) (items := items) (s' := s') (r' := Root (map phi (r_instances r)) mt).
  - cbn [obind]. destruct (WriteTo _) as [w o]. apply OK_pair' in HE2 as [HE2 _]. now rewrite HE2.
  - intros p x name q Hin Hx Hq. apply (A3 x name q); [now exists p|]. apply In_mfind; [|exact Hq]. now apply (xs_inst _ _ Hst x); exists p.
  - intros p x name v Hin Hx Hv. assert (Hxin : inst_in h nodes x) by now exists p. assert (Ev : mfind (i_props x) name = Some v) by (apply In_mfind; [now apply (xs_inst _ _ Hst x)|exact Hv]).
    apply becomes_text; [exact SC|apply (xs_prop _ _ Hst x name v Hxin Ev)|exact (A1 x name v Hxin Ev)].
  - intros p x q. exact (forest_kids h ts (proj1 Hf) p x q).
  - exact Hnoref2.
  - exact E.
  - intros k q Hk _. destruct HI as ((_ & _ & R & _) & _). destruct (R k q Hk) as (_ & _ & i & Hi' & <-). unfold rho. now rewrite Hh1, Hi'.
  - intros p. rewrite Hroots. apply roots_in.
  - reflexivity.
  - intros Hnm. cbn [r_metadata]. apply sort_perm_eq; [exact Nmt|]. apply same_find_perm; [exact Nmt|exact Hmd|]. intros k. rewrite Hmt. destruct Hmeta2 as [Hm2| ->]; [now rewrite Hm2 in Hnm|].
    destruct (mfind (r_metadata r) k) as [v|] eqn:Ev; [|reflexivity]. cbn [option_map]. f_equal. apply nl_text_keeps. apply (A4 k v). now apply mfind_In.
  - exact Et.
Qed.
(** Encode, Decode, Encode: the second Encode, whatever its random source,
    writes the same text and the same warnings, and changes nothing of the
    decoded tree. *)
Theorem C100_resave : forall env rnd fuel e h ts r ws out h1,
  strconv_ok (xe_fl env) -> (forall k, length (rnd k) = 16) -> never_repeats (length h) rnd ->
  forest_at h ts -> r_instances r = map rroot ts -> xml_storable h (fnodes ts) -> length h <= fuel ->
  blank (x_prefix e) -> blank (x_indent e) -> x_noroot e = false -> o_noref (x_opts e) = false ->
  no_collision (xe_hash env) h (fnodes ts) -> NoDup (map fst (r_metadata r)) -> text_tree (xe_fl env) h (fnodes ts) r ->
  xml_encode fuel env rnd e h (Some r) = OK (ws, out, h1) ->
  forall discard, exists r' h', xml_decode env discard out XEOF = OK (r', h', []) /\
    forall rnd2, xml_encode fuel env rnd2 e h' (Some r') = OK (ws, out, h').
Proof.
  intros env rnd fuel e h ts r ws out h1 SC Hrnd Hnr Hf Hroots Hst Hfuel Hp Hi Hn Hnoref Hcol Hmd Ht HE discard.
  destruct (C100_same_tree env rnd fuel e h ts r ws out h1 SC Hrnd Hnr Hf Hroots Hst Hfuel Hp Hi Hn Hnoref Hcol Hmd Ht HE discard) as (r' & h' & D & G).
  exists r', h'. split; [exact D|]. apply (G e ws out h1 Hnoref); [now destruct (o_nometa (x_opts e)); [left|right]|exact HE].
Qed.
(** Load a file and save it again, with the same options and any random
    source. *)
Definition xml_resaved (env : xenv) (fuel : nat) (e : xencoder) (out out' : bytes) : Prop :=
  exists discard rnd r h dws ws h', xml_decode env discard out XEOF = OK (r, h, dws) /\ xml_encode fuel env rnd e h (Some r) = OK (ws, out', h').
Theorem C100_resaved : forall env rnd fuel e h ts r ws out h1,
  strconv_ok (xe_fl env) -> (forall k, length (rnd k) = 16) -> never_repeats (length h) rnd ->
  forest_at h ts -> r_instances r = map rroot ts -> xml_storable h (fnodes ts) -> length h <= fuel ->
  blank (x_prefix e) -> blank (x_indent e) -> x_noroot e = false -> o_noref (x_opts e) = false ->
  no_collision (xe_hash env) h (fnodes ts) -> NoDup (map fst (r_metadata r)) -> text_tree (xe_fl env) h (fnodes ts) r ->
  xml_encode fuel env rnd e h (Some r) = OK (ws, out, h1) ->
  forall out', xml_resaved env fuel e out out' <-> out' = out.
Proof.
  intros env rnd fuel e h ts r ws out h1 SC Hrnd Hnr Hf Hroots Hst Hfuel Hp Hi Hn Hnoref Hcol Hmd Ht HE out'. split.
  - intros (discard & rnd2 & r2 & h2 & dws & ws2 & h3 & D & E2).
    destruct (C100_resave env rnd fuel e h ts r ws out h1 SC Hrnd Hnr Hf Hroots Hst Hfuel Hp Hi Hn Hnoref Hcol Hmd Ht HE discard) as (r' & h' & D' & G).
    rewrite D in D'. apply OK_pair' in D' as [D' _]. apply pair_equal_spec in D' as [-> ->]. rewrite G in E2. apply OK_pair' in E2 as [E2 _]. now apply pair_equal_spec in E2 as [_ <-].
  - intros ->. destruct (C100_resave env rnd fuel e h ts r ws out h1 SC Hrnd Hnr Hf Hroots Hst Hfuel Hp Hi Hn Hnoref Hcol Hmd Ht HE false) as (r' & h' & D' & G).
    exists false, rnd, r', h', [], ws, h'. split; [exact D'|apply G].
Qed.
(** Any number of times. *)
Theorem C100_cycles : forall env rnd fuel e h ts r ws out h1,
  strconv_ok (xe_fl env) -> (forall k, length (rnd k) = 16) -> never_repeats (length h) rnd ->
  forest_at h ts -> r_instances r = map rroot ts -> xml_storable h (fnodes ts) -> length h <= fuel ->
  blank (x_prefix e) -> blank (x_indent e) -> x_noroot e = false -> o_noref (x_opts e) = false ->
  no_collision (xe_hash env) h (fnodes ts) -> NoDup (map fst (r_metadata r)) -> text_tree (xe_fl env) h (fnodes ts) r ->
  xml_encode fuel env rnd e h (Some r) = OK (ws, out, h1) ->
  forall out', clos_refl_trans_1n bytes (xml_resaved env fuel e) out out' -> out' = out.
Proof.
  intros env rnd fuel e h ts r ws out h1 SC Hrnd Hnr Hf Hroots Hst Hfuel Hp Hi Hn Hnoref Hcol Hmd Ht HE out' Hc.
  induction Hc as [b|b b1 b2 H1 Hc IH]; [reflexivity|].
  apply (C100_resaved env rnd fuel e h ts r ws b h1 SC Hrnd Hnr Hf Hroots Hst Hfuel Hp Hi Hn Hnoref Hcol Hmd Ht HE) in H1. subst b1. now apply IH.
Qed.
