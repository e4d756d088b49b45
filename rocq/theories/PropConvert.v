(** PropConvert.v - properties of converting between the formats. *)
From Coq Require Import Permutation.
From Verif Require Import Base RbxlValues RbxlModel RbxlFile RbxlFileProofs RbxValues Tree RbxlCodec RbxlApi
  SpecValues SpecModel SpecFile SpecTree SpecCodec TreeProofs SortProofs RbxlCodecEnc RbxlResaveTree PropCodec
  XmlText XmlDoc XmlCodec SpecXml XmlFloats SpecXmlValues PropXml PropXmlValues PropXmlKept XmlResave SpecConvert Convert RbxlCodecShape XmlTextProofs XmlLayout XmlFloatsProofs XmlFloatsFit PropXmlDecode PropXmlResave.
Local Notation string := String.string.

Lemma shared_strings_from h nodes s : In s (shared_strings h nodes) -> exists x name, inst_in h nodes x /\ In (name, RSharedString s) (i_props x).
Proof.
  unfold shared_strings. intros H. apply in_flat_map in H as (p & Hp & H). destruct (hget h p) as [x|] eqn:Ex; [|destruct H].
  apply in_flat_map in H as ([n v] & Hv & H). cbn [snd] in H. destruct v; try contradiction. destruct H as [->|[]]. exists x, n. split; [now exists p|exact Hv].
Qed.
Lemma shared_len h nodes s : storable h nodes -> In s (shared_strings h nodes) -> len32 s.
Proof.
  intros Hst H. apply shared_strings_from in H as (x & n & Hx & Hv). apply In_mfind in Hv; [|apply (st_class _ _ Hst x Hx)]. exact (proj2 (st_props _ _ Hst x n _ Hx Hv)).
Qed.

(** What was loaded can be written as XML. *)
Definition value_kept fl place h nodes phi fs (p : ptr) (x : inst) (name : bytes) (v' : rvalue) : Prop :=
  good fl v' /\ no_cr name = true /\
  (forall psi, (forall v, mfind (i_props x) name = Some v -> carried (fun p => psi (phi p)) v (moved psi v')) /\
     (mfind (i_props x) name = None -> forall w, written_prop place h nodes (i_class x) name w -> filled (psi (phi (hd 0 nodes))) fs w (moved psi v'))) /\
  (forall q, v' = RReference q -> q <> 0 -> exists p', In p' nodes /\ q = phi p') /\
  (forall s, v' = RSharedString s -> In s (shared_strings h nodes)).
Lemma loaded_for_xml : forall ev lz spare q2m xml noXML place u env h ts r ws b,
  orders_ok ev -> lossless lz -> strconv_ok (xe_fl env) ->
  forest_at h ts -> r_instances r = map rroot ts -> NoDup (map fst (r_metadata r)) ->
  storable h (fnodes ts) -> fits_file h (fnodes ts) r ->
  both_formats (six (xe_fl env)) (nine (xe_fl env)) h (fnodes ts) r -> plain_binary h (fnodes ts) ->
  no_collision (ev_hash ev) h (fnodes ts) -> no_collision (xe_hash env) h (fnodes ts) ->
  Encoder_Encode ev lz place u h (Some r) = OK (ws, b) -> len32 b ->
  exists phi h1 mt fs, let nodes := fnodes ts in let ts1 := map (rtmap phi) ts in let r1 := Root (map phi (r_instances r)) mt in
    Decoder_Decode lz spare q2m xml noXML b = OK (r1, h1, []) /\
    length h1 = length nodes /\ (forall p q, In p nodes -> In q nodes -> phi p = phi q -> p = q) /\ (forall p, ~ In p nodes -> phi p = 0) /\
    (forall class name s, written_prop place h nodes class name (RSharedString s) -> In fs (shared_strings h nodes)) /\
    (forall p x, In p nodes -> hget h p = Some x -> exists x', hget h1 (phi p) = Some x' /\ image_inst place h nodes phi fs x x') /\
    (forall k, mfind mt k = mfind (r_metadata r) k) /\ NoDup (map fst mt) /\ forest_at h1 ts1 /\
    (forall p x x' name v', In p nodes -> hget h p = Some x -> hget h1 (phi p) = Some x' -> image_inst place h nodes phi fs x x' ->
      mfind (i_props x') name = Some v' -> value_kept (xe_fl env) place h nodes phi fs p x name v') /\
    xml_storable h1 (fnodes ts1) /\ no_collision (xe_hash env) h1 (fnodes ts1) /\ Forall (fun kv => no_cr (fst kv) = true) (r_metadata r1).
Proof.
  intros ev lz spare q2m xml noXML place u env h ts r ws b Hev Hlz SC Hf Hr Hm Hst Hff [B1 B2 B3 B4] Hpb Hcol Hcol2 H Hb.
  destruct (binary_loaded ev lz spare q2m xml noXML place u h r ts ws b Hev Hlz Hf Hr Hm Hst Hff Hcol H Hb)
    as (phi & h1 & mt & D1 & [I1 I2 I3 (fs & Hfs & I4)] & M1 & N1 & F1 & K1 & O1).
  set (nodes := fnodes ts) in *. set (ts1 := map (rtmap phi) ts) in *. set (r1 := Root (map phi (r_instances r)) mt).
  assert (En : fnodes ts1 = map phi nodes) by apply fnodes_map.
  assert (Hr1 : r_instances r1 = map rroot ts1) by (unfold r1, ts1; cbn [r_instances]; now rewrite rroots_map, Hr).
  assert (Zero : ~ In 0 nodes) by (intros Hin; destruct (forest_nodes h ts (proj1 Hf) 0 Hin) as [x Hx]; discriminate Hx).
  assert (P0 : phi 0 = 0) by now apply I3.
  assert (Have : forall p, In p nodes -> exists x, hget h p = Some x) by (intros p Hin; exact (forest_nodes h ts (proj1 Hf) p Hin)).
  assert (From : forall x', inst_in h1 (fnodes ts1) x' -> exists p x, In p nodes /\ hget h p = Some x /\ hget h1 (phi p) = Some x' /\ image_inst place h nodes phi fs x x').
  { intros x' (p' & Hp' & Hx'). rewrite En in Hp'. apply in_map_iff in Hp' as (p & <- & Hin). destruct (Have p Hin) as [x Hx]. destruct (I4 p x Hin Hx) as (y & Hy & II).
    assert (y = x') by congruence. subst y. now exists p, x. }
  assert (Hopt : forall x name v, inst_in h nodes x -> mfind (i_props x) name = Some v -> forall t o, v = ROptional t o -> t <> TypeOptional).
  { intros x name v Hx Hv t o ->. exact (st_inner _ _ Hst x name t o Hx Hv). }
  assert (Htext : forall x name v, inst_in h nodes x -> mfind (i_props x) name = Some v -> text_ok v).
  { intros x name v Hx Hv. destruct v; try exact I. exact (Hpb x name s Hx Hv). }
  (* every value of the decoded tree *)
  assert (Val : forall p x x' name v', In p nodes -> hget h p = Some x -> hget h1 (phi p) = Some x' -> image_inst place h nodes phi fs x x' -> mfind (i_props x') name = Some v' ->
    good (xe_fl env) v' /\ no_cr name = true /\
    (forall psi, (forall v, mfind (i_props x) name = Some v -> carried (fun p => psi (phi p)) v (moved psi v')) /\
       (mfind (i_props x) name = None -> forall w, written_prop place h nodes (i_class x) name w -> filled (psi (phi (hd 0 nodes))) fs w (moved psi v'))) /\
    (forall q, v' = RReference q -> q <> 0 -> exists p', In p' nodes /\ q = phi p') /\
    (forall s, v' = RSharedString s -> In s (shared_strings h nodes))).
  { intros p x x' name v' Hin Hx Hx' II Hv. assert (Hxin : inst_in h nodes x) by now exists p.
    destruct (O1 p x x' name v' Hin Hx Hx' Hv) as (w & Hw & Hor). pose proof Hw as ((y & Hy & Ey & Hyw) & _).
    destruct Hor as [Ew|Ew].
    - destruct (ii_has _ _ _ _ _ _ _ II name w Ew Hw) as (v2 & Hv2 & Hc). assert (v2 = v') by congruence. subst v2.
      assert (G : forall psi, good (xe_fl env) v' /\ carried (fun p => psi (phi p)) w (moved psi v')).
      { intros psi. apply (carried_good (xe_fl env)); [exact (Hopt x name w Hxin Ew)|exact (proj2 (st_props _ _ Hst x name w Hxin Ew))|exact (B1 x name w Hxin Ew)|exact (Htext x name w Hxin Ew)|exact Hc]. }
      split; [exact (proj1 (G phi))|]. split; [exact (B2 x name w Hxin Ew)|]. split; [intros psi; split|split].
      + intros v Ev. assert (v = w) by congruence. subst v. apply G.
      + congruence.
      + intros q -> Hq. inversion Hc as [v1 v2 Pl Ks|q0| | | |]; subst.
        * destruct (keeps_plain _ _ Ks Pl).
        * destruct (in_dec Nat.eq_dec q0 nodes) as [Hin0|Hnin]; [now exists q0|]. now rewrite I3 in Hq by assumption.
      + intros s ->. inversion Hc as [v1 v2 Pl Ks| |s0| | |]; subst; [destruct (keeps_plain _ _ Ks Pl)|]. eapply shared_strings_In; eauto.
    - destruct (ii_fill _ _ _ _ _ _ _ II name w Ew Hw) as (v2 & Hv2 & Hc). assert (v2 = v') by congruence. subst v2.
      assert (Hl : forall s, w = RSharedString s -> len32 fs).
      { intros s ->. pose proof (Hfs _ _ _ Hw) as Hin'. exact (shared_len h nodes fs Hst Hin'). }
      assert (G : forall psi, good (xe_fl env) v' /\ filled (psi (phi (hd 0 nodes))) fs w (moved psi v')).
      { intros psi. apply (filled_good _ SC); [exact (Hopt y name w Hy Hyw)|exact (proj2 (st_props _ _ Hst y name w Hy Hyw))|exact (B1 y name w Hy Hyw)|exact Hl|exact Hc]. }
      split; [exact (proj1 (G phi))|]. split; [exact (B2 y name w Hy Hyw)|]. split; [intros psi; split|split].
      + congruence.
      + intros _ w2 Hw2. destruct (ii_fill _ _ _ _ _ _ _ II name w2 Ew Hw2) as (v2 & Hv3 & Hc2). assert (v2 = v') by congruence. subst v2.
        pose proof Hw2 as ((y2 & Hy2 & Ey2 & Hyw2) & _).
        apply (filled_good _ SC); [exact (Hopt y2 name w2 Hy2 Hyw2)|exact (proj2 (st_props _ _ Hst y2 name w2 Hy2 Hyw2))|exact (B1 y2 name w2 Hy2 Hyw2)| |exact Hc2].
        intros s ->. exact (shared_len h nodes fs Hst (Hfs _ _ _ Hw2)).
      + intros q -> Hq. exists (hd 0 nodes). split; [destruct nodes; [destruct Hin|now left]|].
        inversion Hc as [| | | |? d Pl Nt Hd]; subst; [reflexivity|]. exfalso. apply default_type in Hd. destruct w; try contradiction; discriminate Hd.
      + intros s ->. inversion Hc as [| |s0| |? d Pl Nt Hd]; subst; [exact (Hfs _ _ _ Hw)|]. exfalso. apply default_type in Hd. destruct w; try contradiction; discriminate Hd. }
  assert (Hst1 : xml_storable h1 (fnodes ts1)).
  { constructor.
    - intros x' Hx'. destruct (From x' Hx') as (p & x & Hin & Hx & Hy & II). rewrite (ii_ref _ _ _ _ _ _ _ II). split; [reflexivity|exact (K1 _ _ Hy)].
    - intros x' name v' Hx' Hv. destruct (From x' Hx') as (p & x & Hin & Hx & Hy & II). destruct (Val p x x' name v' Hin Hx Hy II Hv) as ((G1 & _ & G3) & G4 & _). now repeat split.
    - intros x' name q Hx' Hv Hq. destruct (From x' Hx') as (p & x & Hin & Hx & Hy & II). destruct (Val p x x' name _ Hin Hx Hy II Hv) as (_ & _ & _ & G & _).
      destruct (G q eq_refl Hq) as (p' & Hp' & ->). destruct (Have p' Hp') as [z Hz]. destruct (I4 p' z Hp' Hz) as (z' & Hz' & II'). exists z'. split; [exact Hz'|]. now rewrite (ii_ref _ _ _ _ _ _ _ II'). }
  assert (Hcol1 : no_collision (xe_hash env) h1 (fnodes ts1)).
  { assert (S : incl (shared_strings h1 (fnodes ts1)) (shared_strings h nodes)).
    { intros s Hs. apply shared_strings_from in Hs as (x' & name & Hx' & Hs). destruct (From x' Hx') as (p & x & Hin & Hx & Hy & II).
      apply In_mfind in Hs; [|exact (K1 _ _ Hy)]. destruct (Val p x x' name _ Hin Hx Hy II Hs) as (_ & _ & _ & _ & G). exact (G s eq_refl). }
    intros s s' Hs Hs'. apply Hcol2; now apply S. }
  assert (Hmeta : forall k v, In (k, v) mt -> In (k, v) (r_metadata r)).
  { intros k v Hkv. apply mfind_In. rewrite <- M1. now apply In_mfind. }
  assert (Hmk : Forall (fun kv => no_cr (fst kv) = true) (r_metadata r1)).
  { apply Forall_forall. intros [k v] Hkv. exact (proj1 (B4 k v (Hmeta k v Hkv))). }
  exists phi, h1, mt, fs. cbv zeta. fold nodes ts1 r1. do 12 (split; [assumption|]). assumption.
Qed.
(** ** C101: from the binary format to XML *)
(** Save in the binary format, load, save as XML, load: nothing fails or warns,
    and the tree is the one that the binary format gives. *)
Theorem C101_to_xml : forall ev lz spare q2m xml noXML place u env rnd fuel e h ts r ws b,
  orders_ok ev -> lossless lz -> strconv_ok (xe_fl env) -> (forall k, length (rnd k) = 16) -> never_repeats (length (fnodes ts)) rnd ->
  forest_at h ts -> r_instances r = map rroot ts -> NoDup (map fst (r_metadata r)) ->
  storable h (fnodes ts) -> fits_file h (fnodes ts) r ->
  both_formats (six (xe_fl env)) (nine (xe_fl env)) h (fnodes ts) r -> plain_binary h (fnodes ts) ->
  no_collision (ev_hash ev) h (fnodes ts) -> no_collision (xe_hash env) h (fnodes ts) -> length (fnodes ts) <= fuel ->
  blank (x_prefix e) -> blank (x_indent e) -> x_noroot e = false -> o_noref (x_opts e) = false ->
  Encoder_Encode ev lz place u h (Some r) = OK (ws, b) -> len32 b ->
  exists r1 h1 out h2, Decoder_Decode lz spare q2m xml noXML b = OK (r1, h1, []) /\
    xml_encode fuel env rnd e h1 (Some r1) = OK ([], out, h2) /\
    forall discard, exists phi h' mt,
      xml_decode env discard out XEOF = OK (Root (map phi (r_instances r)) mt, h', []) /\
      converted place h (fnodes ts) phi h' /\
      forall k, mfind mt k = if o_nometa (x_opts e) then None else mfind (r_metadata r) k.
Proof.
  intros ev lz spare q2m xml noXML place u env rnd fuel e h ts r ws b Hev Hlz SC Hrnd Hnr Hf Hr Hm Hst Hff [B1 B2 B3 B4] Hpb Hcol Hcol2 Hfuel Hp Hi Hn Hnoref H Hb.
  pose proof (strconv_floats_ok _ SC) as Hfl.
  destruct (loaded_for_xml ev lz spare q2m xml noXML place u env h ts r ws b Hev Hlz SC Hf Hr Hm Hst Hff (Build_both_formats _ _ _ _ _ B1 B2 B3 B4) Hpb Hcol Hcol2 H Hb)
    as (phi & h1 & mt & fs & D1 & I1 & I2 & I3 & Hfs & I4 & M1 & N1 & F1 & Val & Hst1 & Hcol1 & Hmk).
  set (nodes := fnodes ts) in *. set (ts1 := map (rtmap phi) ts) in *. set (r1 := Root (map phi (r_instances r)) mt) in *.
  assert (En : fnodes ts1 = map phi nodes) by apply fnodes_map.
  assert (Hr1 : r_instances r1 = map rroot ts1) by (unfold r1, ts1; cbn [r_instances]; now rewrite rroots_map, Hr).
  assert (Have : forall p, In p nodes -> exists x, hget h p = Some x) by (intros p Hin; exact (forest_nodes h ts (proj1 Hf) p Hin)).
  assert (Hlen1 : length h1 = length (fnodes ts1)) by (rewrite En, map_length; exact I1).
  assert (Hnr1 : never_repeats (length h1) rnd) by now rewrite I1.
  destruct (C49_encode_total env rnd fuel e h1 ts1 r1 Hfl Hrnd Hnr1 F1 Hr1 Hst1 ltac:(lia) Hp Hi Hn) as (out & h2 & HE & _).
  exists r1, h1, out, h2. split; [exact D1|]. split; [exact HE|]. intros discard.
  destruct (C50_roundtrip env rnd fuel e h1 ts1 r1 [] out h2 Hfl Hrnd Hnr1 F1 Hr1 Hst1 ltac:(lia) Hp Hi Hn Hcol1 N1 Hmk HE discard XEOF)
    as (psi & h' & mt' & D & [J1 J2 J3 J4] & Hmt).
  exists (fun p => psi (phi p)), h', mt'. split; [|split].
  - rewrite D. unfold r1. cbn [r_instances]. now rewrite map_map.
  - constructor.
    + rewrite J1, En. apply map_length.
    + intros p q Hin Hin' E. apply (I2 p q Hin Hin'). apply J2; [rewrite En; now apply in_map..|exact E].
    + intros p Hnin. rewrite (I3 p Hnin). apply J3. rewrite En. intros Hz. apply in_map_iff in Hz as (q & Hq & Hin). destruct (Have q Hin) as [x Hx].
      destruct (I4 q x Hin Hx) as (x' & Hx' & _). rewrite Hq in Hx'. discriminate Hx'.
    + exists fs. split; [exact Hfs|]. intros p x Hin Hx. destruct (I4 p x Hin Hx) as (x1 & Hx1 & II).
      assert (Hin1 : In (phi p) (fnodes ts1)) by (rewrite En; now apply in_map).
      destruct (J4 (phi p) x1 Hin1 Hx1) as (x' & y & E1 & _ & E3 & E4 & E5 & _ & E7). rewrite Hnoref in E7.
      assert (Fd : forall name v1, mfind (i_props x1) name = Some v1 -> mfind (i_props x') name = Some (moved psi v1)).
      { intros name v1 Hv1. rewrite E7, Hv1. apply kept_prop; [exact SC| |]; apply (Val p x x1 name v1 Hin Hx Hx1 II Hv1). }
      exists x'. split; [exact E1|]. split; [|split; [exact E4|split; [|split; [|split]]]].
      * rewrite E3, (ii_class _ _ _ _ _ _ _ II). apply nl_no_cr. apply B3. now exists p.
      * rewrite E5, (ii_children _ _ _ _ _ _ _ II). apply map_map.
      * intros name v Hv Hw. destruct (ii_has _ _ _ _ _ _ _ II name v Hv Hw) as (v1 & Hv1 & _). exists (moved psi v1). split; [now apply Fd|].
        destruct (Val p x x1 name v1 Hin Hx Hx1 II Hv1) as (_ & _ & G & _). now apply (G psi).
      * intros name w Hv Hw. destruct (ii_fill _ _ _ _ _ _ _ II name w Hv Hw) as (v1 & Hv1 & _). exists (moved psi v1). split; [now apply Fd|].
        destruct (Val p x x1 name v1 Hin Hx Hx1 II Hv1) as (_ & _ & G & _). now apply (G psi).
      * intros name Hnw. rewrite E7, (ii_skip _ _ _ _ _ _ _ II name Hnw). reflexivity.
  - intros k. rewrite Hmt. destruct (o_nometa (x_opts e)); [reflexivity|]. unfold r1. cbn [r_metadata]. rewrite M1.
    destruct (mfind (r_metadata r) k) as [v|] eqn:Ev; [|reflexivity]. cbn [option_map]. f_equal. apply nl_text_keeps. apply (B4 k v). now apply mfind_In.
Qed.

(** ** From XML to the binary format *)
Lemma moved_type phi v : rtype (moved phi v) = rtype v.
Proof. destruct v; reflexivity. Qed.
Lemma moved_back phi v s : moved phi v = RSharedString s -> v = RSharedString s.
Proof. destruct v; cbn; congruence. Qed.
Lemma moved_optional phi v t o : moved phi v = ROptional t o -> v = ROptional t o.
Proof. destruct v; cbn; congruence. Qed.
Lemma moved_wf phi v : wf_rvalue v -> wf_rvalue (moved phi v).
Proof. destruct v; cbn [moved wf_rvalue]; auto. Qed.
Lemma carried_after phi psi v v' : carried psi (moved phi v) v' -> carried (fun p => psi (phi p)) v v'.
Proof.
  intros H. assert (D : (exists p, v = RReference p) \/ moved phi v = v) by (destruct v; try (now right); left; eauto).
  destruct D as [[p ->]|D].
  - cbn [moved] in H. inversion H as [v1 v2 Pl Ks| | | | |]; subst; [destruct Pl|]. exact (carried_reference (fun p => psi (phi p)) p).
  - rewrite D in H. destruct H as [v v' Hp H|p|s|t|t v v' Hp H|t v Hp]; [now apply carried_plain| |now apply carried_shared|apply carried_none|now apply carried_some|now apply carried_lost].
    cbn in D. assert (E : phi p = p) by congruence. assert (E2 : psi (phi p) = psi p) by now rewrite E. rewrite <- E2. exact (carried_reference (fun p => psi (phi p)) p).
Qed.
Lemma filled_after first fs phi w v' : filled first fs (moved phi w) v' -> filled first fs w v'.
Proof.
  intros H. assert (D : (exists p, w = RReference p) \/ moved phi w = w) by (destruct w; try (now right); left; eauto).
  destruct D as [[p ->]|D]; [|now rewrite D in H].
  cbn [moved] in H. inversion H as [| | | |? d Pl Nt Hd]; subst; [|destruct Pl]. apply filled_reference.
Qed.
Lemma forest_map h h' f ts : forest_at h ts ->
  (forall p x, In p (fnodes ts) -> hget h p = Some x -> exists x', hget h' (f p) = Some x' /\ i_children x' = map f (i_children x)) ->
  (forall p q, In p (fnodes ts) -> In q (fnodes ts) -> f p = f q -> p = q) -> forest_at h' (map (rtmap f) ts).
Proof.
  intros [H1 H2] Hk Hinj. split.
  - rewrite Forall_map. rewrite Forall_forall in *. intros t Ht. eapply tree_map; [now apply H1|]. intros p x Hp. apply Hk. apply in_flat_map. eauto.
  - rewrite fnodes_map. clear H1 Hk. induction H2 as [|p l Hp Hl IH]; cbn [map]; [constructor|]. constructor.
    + intros Hin. apply in_map_iff in Hin as (q & E & Hq). apply Hp. assert (q = p) by (apply Hinj; [now right|now left|exact E]). congruence.
    + apply IH. intros; apply Hinj; auto; now right.
Qed.
(** The number of shared strings. *)
Definition strings_of (x : inst) : list bytes := flat_map (fun nv => match snd nv with RSharedString s => [s] | _ => [] end) (i_props x).
Lemma strings_perm (l l' : list (bytes * rvalue)) : Permutation l l' ->
  length (flat_map (fun nv => match snd nv with RSharedString s => [s] | _ => [] end) l) = length (flat_map (fun nv => match snd nv with RSharedString s => [s] | _ => [] end) l').
Proof. intros H. apply Permutation_length. now apply Permutation_flat_map. Qed.
Lemma strings_moved phi (l : list (bytes * rvalue)) :
  flat_map (fun nv => match snd nv with RSharedString s => [s] | _ => [] end) (map (with_value (moved phi)) l) = flat_map (fun nv => match snd nv with RSharedString s => [s] | _ => [] end) l.
Proof. induction l as [|[n v] l IH]; [reflexivity|]. cbn [map flat_map with_value fst snd]. rewrite IH. now destruct v. Qed.

Theorem C101_to_binary : forall env rnd fuel e ev lz spare q2m xml noXML place u h ts r ws out h0,
  strconv_ok (xe_fl env) -> (forall k, length (rnd k) = 16) -> never_repeats (length h) rnd -> orders_ok ev -> lossless lz ->
  forest_at h ts -> r_instances r = map rroot ts -> NoDup (map fst (r_metadata r)) ->
  xml_storable h (fnodes ts) -> storable h (fnodes ts) -> fits_file h (fnodes ts) r ->
  both_formats (six (xe_fl env)) (nine (xe_fl env)) h (fnodes ts) r ->
  no_collision (ev_hash ev) h (fnodes ts) -> no_collision (xe_hash env) h (fnodes ts) -> length h <= fuel ->
  blank (x_prefix e) -> blank (x_indent e) -> x_noroot e = false -> o_noref (x_opts e) = false ->
  xml_encode fuel env rnd e h (Some r) = OK (ws, out, h0) ->
  forall discard, exists r1 h1, xml_decode env discard out XEOF = OK (r1, h1, []) /\
    (exists b, Encoder_Encode ev lz place true h1 (Some r1) = OK ([], b)) /\
    forall ws1 b, Encoder_Encode ev lz place u h1 (Some r1) = OK (ws1, b) -> len32 b ->
      ws1 = [] /\ exists phi h' mt,
        Decoder_Decode lz spare q2m xml noXML b = OK (Root (map phi (r_instances r)) mt, h', []) /\
        converted place h (fnodes ts) phi h' /\
        forall k, mfind mt k = if o_nometa (x_opts e) then None else mfind (r_metadata r) k.
Proof.
  intros env rnd fuel e ev lz spare q2m xml noXML place u h ts r ws out h0 SC Hrnd Hnr Hev Hlz Hf Hr Hm Hxst Hst Hff [B1 B2 B3 B4] Hcol Hcol2 Hfuel Hp Hi Hn Hnoref HE discard.
  pose proof (strconv_floats_ok _ SC) as Hfl.
  assert (Hmk : Forall (fun kv => no_cr (fst kv) = true) (r_metadata r)) by (apply Forall_forall; intros [k v] Hkv; exact (proj1 (B4 k v Hkv))).
  destruct (C50_roundtrip env rnd fuel e h ts r ws out h0 Hfl Hrnd Hnr Hf Hr Hxst Hfuel Hp Hi Hn Hcol2 Hm Hmk HE discard XEOF)
    as (phi & h1 & mt & D & [I1 I2 I3 I4] & M1).
  destruct (C54_decode_forest _ _ _ _ _ _ _ D) as (d & ts' & _ & _ & _ & _ & Wf & _).
  pose proof (decode_meta_keys _ _ _ _ _ _ _ D) as N1. cbn [r_metadata] in N1.
  set (nodes := fnodes ts) in *. set (ts1 := map (rtmap phi) ts). set (r1 := Root (map phi (r_instances r)) mt) in *.
  assert (En : fnodes ts1 = map phi nodes) by apply fnodes_map.
  assert (Hr1 : r_instances r1 = map rroot ts1) by (unfold r1, ts1; cbn [r_instances]; now rewrite rroots_map, Hr).
  assert (Have : forall p, In p nodes -> exists x, hget h p = Some x) by (intros p Hin; exact (forest_nodes h ts (proj1 Hf) p Hin)).
  (* what was loaded is the tree at other addresses *)
  assert (Img : forall p x, In p nodes -> hget h p = Some x -> exists x', hget h1 (phi p) = Some x' /\ i_class x' = i_class x /\ i_service x' = false /\
    i_children x' = map phi (i_children x) /\ (forall name, mfind (i_props x') name = option_map (moved phi) (mfind (i_props x) name)) /\ NoDup (map fst (i_props x'))).
  { intros p x Hin Hx. assert (Hxin : inst_in h nodes x) by now exists p. destruct (I4 p x Hin Hx) as (x' & y & E1 & _ & E3 & E4 & E5 & _ & E7). rewrite Hnoref in E7.
    exists x'. split; [exact E1|]. split; [rewrite E3; apply nl_no_cr; now apply B3|]. split; [exact E4|]. split; [exact E5|]. split; [|exact (proj1 (Wf _ _ E1))].
    intros name. rewrite E7. destruct (mfind (i_props x) name) as [v|] eqn:Ev; [|reflexivity]. cbn [option_map]. apply kept_prop; [exact SC|apply (xs_prop _ _ Hxst x name v Hxin Ev)|exact (B1 x name v Hxin Ev)]. }
  assert (From : forall x', inst_in h1 (map phi nodes) x' -> exists p x, In p nodes /\ hget h p = Some x /\ hget h1 (phi p) = Some x').
  { intros x' (p' & Hp' & Hx'). apply in_map_iff in Hp' as (p & <- & Hin). destruct (Have p Hin) as [x Hx]. now exists p, x. }
  assert (Back : forall x', inst_in h1 (map phi nodes) x' -> exists x, inst_in h nodes x /\ i_class x' = i_class x /\
    (forall name, mfind (i_props x') name = option_map (moved phi) (mfind (i_props x) name)) /\ NoDup (map fst (i_props x'))).
  { intros x' Hx'. destruct (From x' Hx') as (p & x & Hin & Hx & Hy). destruct (Img p x Hin Hx) as (y & Hy' & E1 & _ & _ & E2 & E3). assert (y = x') by congruence. subst y.
    exists x. split; [now exists p|]. now repeat split. }
  assert (BackV : forall x' name v', inst_in h1 (map phi nodes) x' -> mfind (i_props x') name = Some v' ->
    exists x v, inst_in h nodes x /\ i_class x' = i_class x /\ mfind (i_props x) name = Some v /\ v' = moved phi v).
  { intros x' name v' Hx' Hv. destruct (Back x' Hx') as (x & Hx & Ec & Ep & _). rewrite Ep in Hv. destruct (mfind (i_props x) name) as [v|] eqn:Ev; [|discriminate Hv].
    cbn [option_map] in Hv. exists x, v. repeat split; try assumption. congruence. }
  assert (Forth : forall x, inst_in h nodes x -> exists x', inst_in h1 (map phi nodes) x' /\ i_class x' = i_class x /\
    (forall name, mfind (i_props x') name = option_map (moved phi) (mfind (i_props x) name))).
  { intros x (p & Hin & Hx). destruct (Img p x Hin Hx) as (x' & Hx' & E1 & _ & _ & E2 & _). exists x'. split; [exists (phi p); split; [now apply in_map|exact Hx']|]. now split. }
  assert (Hlen : length (shared_strings h1 (map phi nodes)) = length (shared_strings h nodes)).
  { unfold shared_strings. rewrite flat_map_concat_map, map_map, <- flat_map_concat_map. assert (G : incl nodes nodes) by apply incl_refl. revert G. generalize nodes at 1 3 4. intros l.
    induction l as [|p l IH]; intros G; [reflexivity|]. cbn [flat_map]. rewrite !app_length, IH by (intros a Ha; apply G; now right). f_equal.
    assert (Hin : In p nodes) by (apply G; now left). destruct (Have p Hin) as [x Hx]. destruct (Img p x Hin Hx) as (x' & Hx' & _ & _ & _ & E2 & E3). rewrite Hx, Hx'.
    rewrite <- (strings_moved phi (i_props x)). apply strings_perm. apply same_find_perm; [exact E3|rewrite moved_keys; apply (xs_inst _ _ Hxst x); now exists p|]. intros k. now rewrite E2, map_moved_find. }
  assert (Hincl : incl (shared_strings h1 (map phi nodes)) (shared_strings h nodes)).
  { intros s Hs. apply shared_strings_from in Hs as (x' & name & Hx' & Hs). destruct (Back x' Hx') as (x & Hx & _ & _ & Nx). apply In_mfind in Hs; [|exact Nx].
    destruct (BackV x' name _ Hx' Hs) as (x2 & v & Hx2 & _ & Ev & E). symmetry in E. apply moved_back in E. subst v. eapply shared_strings_In; eauto. }
  assert (Hst1 : storable h1 (fnodes ts1)).
  { rewrite En. constructor.
    - rewrite map_length. exact (st_count _ _ Hst).
    - rewrite Hlen. exact (st_strings _ _ Hst).
    - intros x' Hx'. destruct (Back x' Hx') as (x & Hx & E1 & _ & E2). rewrite E1. split; [apply (st_class _ _ Hst x Hx)|exact E2].
    - intros x' name v' Hx' Hv. destruct (BackV x' name v' Hx' Hv) as (x & v & Hx & _ & Ev & ->). destruct (st_props _ _ Hst x name v Hx Ev) as [G1 G2]. split; [exact G1|now apply moved_wf].
    - intros x' name t v' Hx' Hv. destruct (BackV x' name _ Hx' Hv) as (x & v & Hx & _ & Ev & E). symmetry in E. apply moved_optional in E. subst v. exact (st_inner _ _ Hst x name t v' Hx Ev).
    - intros x' y' name t t2 v w Hx' Hy' Ec Hv Hw. destruct (BackV x' name _ Hx' Hv) as (x & v1 & Hx & E1 & Ev & E). symmetry in E. apply moved_optional in E. subst v1.
      destruct (BackV y' name _ Hy' Hw) as (y & w1 & Hy & E2 & Ew & E). symmetry in E. apply moved_optional in E. subst w1. eapply (st_agree _ _ Hst x y); eauto. congruence. }
  assert (Hmeta : forall k v, In (k, v) mt -> In (k, v) (r_metadata r)).
  { intros k v Hkv. apply In_mfind in Hkv; [|exact N1]. rewrite M1 in Hkv. destruct (o_nometa (x_opts e)); [discriminate Hkv|].
    destruct (mfind (r_metadata r) k) as [w|] eqn:Ew; [|discriminate Hkv]. cbn [option_map] in Hkv. apply mfind_In in Ew. rewrite (proj2 (nl_text_keeps w) (proj2 (B4 k w Ew))) in Hkv. congruence. }
  assert (Hff1 : fits_file h1 (fnodes ts1) r1).
  { rewrite En. destruct Hff as [F1 F2 F3]. constructor.
    - rewrite map_length. exact F1.
    - unfold r1. cbn [r_metadata]. destruct F2 as [G1 G2]. split.
      + assert (L : length mt <= length (r_metadata r)) by (apply NoDup_incl_length; [now apply NoDup_of_keys|intros [k v] Hkv; now apply Hmeta]). unfold len32 in *. lia.
      + rewrite Forall_forall in *. intros [k v] Hkv. apply G2. now apply Hmeta.
    - intros x' name t v' Hx' Hv. destruct (BackV x' name _ Hx' Hv) as (x & v & Hx & _ & Ev & E). symmetry in E. apply moved_optional in E. subst v. exact (F3 x name t v' Hx Ev). }
  assert (F1 : forest_at h1 ts1).
  { apply (forest_map h); [exact Hf| |exact I2]. intros p x Hin Hx. destruct (Img p x Hin Hx) as (x' & G1 & _ & _ & G2 & _). now exists x'. }
  assert (Hcol1 : no_collision (ev_hash ev) h1 (fnodes ts1)) by (rewrite En; intros s s' Hs Hs'; apply Hcol; now apply Hincl).
  exists r1, h1. split; [exact D|]. split; [exact (C23_encode_total ev lz place h1 r1 ts1 Hev F1 Hr1 Hst1 Hff1 Hcol1)|]. intros ws1 b HB Hb.
  destruct (C23_roundtrip ev lz spare q2m xml noXML place u h1 r1 ts1 ws1 b Hev Hlz F1 Hr1 N1 Hst1 Hff1 Hcol1 HB Hb) as (-> & psi & h' & mt' & D' & [J1 J2 J3 (fs & Hfs & J4)] & M2).
  split; [reflexivity|]. exists (fun p => psi (phi p)), h', mt'.
  (* the written properties are the same *)
  assert (W1 : forall c name w, written_prop place h nodes c name w -> written_prop place h1 (fnodes ts1) c name (moved phi w)).
  { intros c name w ((x & Hx & Ec & Ew) & Al & Pl). rewrite En. split; [|split].
    - destruct (Forth x Hx) as (x' & Hx' & E1 & E2). exists x'. split; [exact Hx'|]. split; [congruence|]. now rewrite E2, Ew.
    - intros x' y' v' w' Hx' Hy' Ex Ey Hv Hw. destruct (BackV x' name v' Hx' Hv) as (x2 & v2 & X1 & X2 & X3 & ->). destruct (BackV y' name w' Hy' Hw) as (y2 & w2 & Y1 & Y2 & Y3 & ->).
      rewrite !moved_type. apply (Al x2 y2); congruence || assumption.
    - now rewrite moved_type. }
  assert (W2 : forall c name w', written_prop place h1 (fnodes ts1) c name w' -> exists w, w' = moved phi w /\ written_prop place h nodes c name w).
  { intros c name w' ((x' & Hx' & Ec & Ew) & Al & Pl). rewrite En in Hx', Al. destruct (BackV x' name w' Hx' Ew) as (x & w & Hx & E1 & E2 & ->). exists w. split; [reflexivity|].
    split; [exists x; split; [exact Hx|split; [congruence|exact E2]]|]. split; [|now rewrite moved_type in Pl].
    intros x2 y2 v2 w2 X1 Y1 X2 Y2 X3 Y3. destruct (Forth x2 X1) as (x3 & A1 & A2 & A3). destruct (Forth y2 Y1) as (y3 & C1 & C2 & C3).
    rewrite <- (moved_type phi v2), <- (moved_type phi w2). apply (Al x3 y3); try assumption; try congruence; [rewrite A3, X3|rewrite C3, Y3]; reflexivity. }
  split; [|split].
  - rewrite D'. unfold r1. cbn [r_instances]. now rewrite map_map.
  - constructor.
    + rewrite J1, En. apply map_length.
    + intros p q Hin Hin' E. apply (I2 p q Hin Hin'). apply J2; [rewrite En; now apply in_map..|exact E].
    + intros p Hnin. rewrite (I3 p Hnin). apply J3. rewrite En. intros Hz. apply in_map_iff in Hz as (q & Hq & Hin). destruct (Have q Hin) as [x Hx].
      destruct (Img q x Hin Hx) as (x' & Hx' & _). rewrite Hq in Hx'. discriminate Hx'.
    + exists fs. split.
      * intros c name s Hw. rewrite En in Hfs. apply Hincl. apply (Hfs c name s). rewrite <- En. exact (W1 c name _ Hw).
      * intros p x Hin Hx. destruct (Img p x Hin Hx) as (x1 & Hx1 & E1 & E2 & E3 & E4 & _).
        assert (Hin1 : In (phi p) (fnodes ts1)) by (rewrite En; now apply in_map). destruct (J4 (phi p) x1 Hin1 Hx1) as (x' & Hx' & II).
        exists x'. split; [exact Hx'|]. split; [rewrite (ii_class _ _ _ _ _ _ _ II); exact E1|]. split; [rewrite (ii_service _ _ _ _ _ _ _ II), E2; apply andb_false_r|].
        split; [rewrite (ii_children _ _ _ _ _ _ _ II), E3; apply map_map|]. split; [|split].
        -- intros name v Hv Hw. apply W1 in Hw. rewrite <- E1 in Hw. destruct (ii_has _ _ _ _ _ _ _ II name (moved phi v)) as (v' & G1 & G2); [now rewrite E4, Hv|exact Hw|].
           exists v'. split; [exact G1|now apply carried_after].
        -- intros name w Hv Hw. apply W1 in Hw. rewrite <- E1 in Hw. destruct (ii_fill _ _ _ _ _ _ _ II name (moved phi w)) as (v' & G1 & G2); [now rewrite E4, Hv|exact Hw|].
           exists v'. split; [exact G1|]. apply filled_after in G2. replace (psi (phi (hd 0 nodes))) with (psi (hd 0 (fnodes ts1))); [exact G2|]. rewrite En. destruct nodes; [destruct Hin|reflexivity].
        -- intros name Hnw. apply (ii_skip _ _ _ _ _ _ _ II). intros w' Hw'. rewrite E1 in Hw'. destruct (W2 _ _ _ Hw') as (w & _ & Hw). exact (Hnw w Hw).
  - intros k. rewrite M2. unfold r1. cbn [r_metadata]. rewrite M1. destruct (o_nometa (x_opts e)); [reflexivity|].
    destruct (mfind (r_metadata r) k) as [v|] eqn:Ev; [|reflexivity]. cbn [option_map]. f_equal. apply nl_text_keeps. apply (B4 k v). now apply mfind_In.
Qed.
