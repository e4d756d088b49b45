(** PropXmlSettle.v - after one load and save the text of an XML file stays. *)
From Coq Require Import Permutation Relations.
From Verif Require Import Base RbxlValues RbxValues Tree RbxlCodec SpecValues SpecTree SpecCodec SortProofs TreeProofs PropTree RbxlFileProofs RbxlCodecShape
  XmlText XmlDoc XmlCodec SpecXml XmlFloats XmlFloatsFit SpecXmlValues XmlTextProofs XmlTreeEnc XmlRound XmlTreeWrites
  RbxlCodecEnc PropXml PropXmlValues PropXmlDecode PropXmlKept XmlResave SpecXmlResave XmlRetext PropXmlResave XmlSettle.
Local Notation string := String.string.

(** The references that are written have no carriage returns. *)
Lemma written_refs_clean env rnd fuel e h ts r ws out h1 :
  floats_ok (xe_fl env) -> (forall k, length (rnd k) = 16) -> never_repeats (length h) rnd ->
  forest_at h ts -> r_instances r = map rroot ts -> xml_storable h (fnodes ts) -> length h <= fuel ->
  xml_encode fuel env rnd e h (Some r) = OK (ws, out, h1) ->
  forall p i, In p (fnodes ts) -> hget h1 p = Some i -> no_cr (i_ref i) = true.
Proof.
  intros Hfl Hrnd Hnr Hf Hroots Hst Hfuel HE p i Hin Hg.
  destruct (write_ok env rnd h ts (x_opts e) r Hfl Hrnd Hnr Hf Hroots Hst fuel Hfuel) as (items & sh & s' & E & Es & HI & HF).
  unfold xml_encode in HE. rewrite E in HE. cbn [obind] in HE. destruct (WriteTo _) as [w o]. apply OK_pair' in HE as [_ <-].
  destruct HI as (_ & _ & Fr & _). destruct (Fr p i Hg) as (i0 & Hi0 & [-> | [j ->]]); [|apply generated_no_cr; apply Hrnd].
  apply (xs_inst _ _ Hst i0). now exists p.
Qed.
Lemma prop_reference fl discard phi v q : xml_prop fl discard false phi v = Some (RReference q) -> exists p, v = RReference p /\ phi p = q.
Proof.
  intros E. destruct v; cbn [xml_prop xml_value_or xml_value] in E; try discriminate E.
  - apply Some_eq in E. exists p. split; [reflexivity|congruence].
  - unfold xml_value_or in E. cbn [xml_value] in E. destruct custom; discriminate E.
  - unfold xml_value_or in E. cbn [xml_value] in E. destruct v as [v|]; [destruct v|]; discriminate E.
  - unfold xml_value_or in E. cbn [xml_value] in E. destruct (_ <? _)%N; [destruct (_ <=? _)%N|]; try destruct discard; discriminate E.
Qed.
Lemma prop_shared fl discard phi v s : xml_prop fl discard false phi v = Some (RSharedString s) -> v = RSharedString s.
Proof.
  intros E. destruct v; cbn [xml_prop xml_value_or xml_value] in E; try discriminate E.
  - unfold xml_value_or in E. cbn [xml_value] in E. destruct custom; discriminate E.
  - apply Some_eq in E. congruence.
  - unfold xml_value_or in E. cbn [xml_value] in E. destruct v as [v|]; [destruct v|]; discriminate E.
  - unfold xml_value_or in E. cbn [xml_value] in E. destruct (_ <? _)%N; [destruct (_ <=? _)%N|]; try destruct discard; discriminate E.
Qed.
(** Save, load, save: from then on loading and saving leaves the text as it is. *)
Theorem C100_settles : forall env rnd fuel e h ts r ws out h1,
  strconv_ok (xe_fl env) -> (forall k, length (rnd k) = 16) -> never_repeats (length h) rnd ->
  forest_at h ts -> r_instances r = map rroot ts -> xml_storable h (fnodes ts) -> length h <= fuel ->
  blank (x_prefix e) -> blank (x_indent e) -> x_noroot e = false -> o_noref (x_opts e) = false ->
  no_collision (xe_hash env) h (fnodes ts) -> NoDup (map fst (r_metadata r)) -> Forall (fun kv => no_cr (fst kv) = true) (r_metadata r) ->
  (forall x name v, inst_in h (fnodes ts) x -> mfind (i_props x) name = Some v -> settles v) ->
  xml_encode fuel env rnd e h (Some r) = OK (ws, out, h1) ->
  forall discard, exists r' h', xml_decode env discard out XEOF = OK (r', h', []) /\
    forall rnd2, (forall k, length (rnd2 k) = 16) -> never_repeats (length h') rnd2 ->
      exists out2 h2, xml_encode fuel env rnd2 e h' (Some r') = OK ([], out2, h2) /\
        forall out3, clos_refl_trans_1n bytes (xml_resaved env fuel e) out2 out3 <-> out3 = out2.
Proof.
  intros env rnd fuel e h ts r ws out h1 SC Hrnd Hnr Hf Hroots Hst Hfuel Hp Hi Hn Hnoref Hcol Hmd Hmk Hset HE discard.
  pose proof (strconv_floats_ok _ SC) as Hfl.
  destruct (C50_roundtrip env rnd fuel e h ts r ws out h1 Hfl Hrnd Hnr Hf Hroots Hst Hfuel Hp Hi Hn Hcol Hmd Hmk HE discard XEOF) as (phi & h' & mt & D & [I1 I2 I3 I4] & Hmt).
  destruct (C54_decode_forest _ _ _ _ _ _ _ D) as (d & ts' & _ & Hroots' & Hf' & Hall & Wf & _).
  pose proof (decode_meta_keys _ _ _ _ _ _ _ D) as Nmt. cbn [r_metadata r_instances] in *.
  pose proof (written_refs_clean env rnd fuel e h ts r ws out h1 Hfl Hrnd Hnr Hf Hroots Hst Hfuel HE) as Hclean.
  set (nodes := fnodes ts) in *. set (r' := Root (map phi (r_instances r)) mt) in *. exists r', h'. split; [exact D|].
  assert (Have : forall p, In p nodes -> exists x, hget h p = Some x) by (intros p Hin; exact (forest_nodes h ts (proj1 Hf) p Hin)).
  assert (Range : forall p, In p nodes -> 1 <= phi p <= length nodes).
  { intros p Hin. destruct (Have p Hin) as [x Hx]. destruct (I4 p x Hin Hx) as (x' & y & E1 & _). apply hget_some in E1. rewrite I1 in E1. exact E1. }
  (* every instance is an image *)
  assert (Img : forall q x', hget h' q = Some x' -> exists p x y, In p nodes /\ inst_in h nodes x /\ phi p = q /\ hget h1 p = Some y /\
    i_class x' = nl (i_class x) /\ i_ref x' = i_ref y /\ forall name, mfind (i_props x') name = match mfind (i_props x) name with Some v => xml_prop (xe_fl env) discard false phi v | None => None end).
  { intros q x' Hq. pose proof (hget_some _ _ _ Hq) as R1. rewrite I1 in R1. destruct (onto phi nodes (proj2 Hf) I2 Range q R1) as (p & Hp1 & <-).
    destruct (Have p Hp1) as [x Hx]. destruct (I4 p x Hp1 Hx) as (z & y & E1 & E2 & E3 & _ & _ & E6 & E7). rewrite Hq in E1. apply Some_eq in E1. subst z. rewrite Hnoref in E6, E7.
    exists p, x, y. split; [exact Hp1|]. split; [now exists p|]. split; [reflexivity|]. split; [exact E2|]. split; [exact E3|]. split; [exact E6|exact E7]. }
  assert (Prop_ : forall x' name w, inst_in h' (fnodes ts') x' -> mfind (i_props x') name = Some w -> exists x v, inst_in h nodes x /\ mfind (i_props x) name = Some v /\ xml_prop (xe_fl env) discard false phi v = Some w).
  { intros x' name w (q & _ & Hq) Hw. destruct (Img q x' Hq) as (p & x & y & _ & X & _ & _ & _ & _ & X7). rewrite X7 in Hw. destruct (mfind (i_props x) name) as [v|] eqn:Ev; [|discriminate Hw]. now exists x, v. }
  assert (Good : forall x' name w, inst_in h' (fnodes ts') x' -> mfind (i_props x') name = Some w -> no_cr name = true /\ wf_rvalue w /\ enclosed w = true /\ text_kept (text6 (xe_fl env)) (text9 (xe_fl env)) w).
  { intros x' name w Hx' Hw. destruct (Prop_ x' name w Hx' Hw) as (x & v & X & Ev & W). destruct (xs_prop _ _ Hst x name v X Ev) as (V1 & V2 & V3). split; [exact V1|].
    exact (prop_settled _ SC discard phi v w V2 (Hset x name v X Ev) V3 W). }
  assert (Back : forall x' name q, inst_in h' (fnodes ts') x' -> mfind (i_props x') name = Some (RReference q) -> q <> 0 -> exists p, In p nodes /\ phi p = q).
  { intros x' name q Hx' Hw Hq. destruct (Prop_ x' name _ Hx' Hw) as (x & v & X & Ev & W). destruct (prop_reference _ _ _ _ _ W) as (p & -> & <-). exists p. split; [|reflexivity].
    destruct (in_dec Nat.eq_dec p nodes) as [H|H]; [exact H|]. now apply I3 in H. }
  assert (Inh : forall q x', hget h' q = Some x' -> inst_in h' (fnodes ts') x').
  { intros q x' Hq. exists q. split; [|exact Hq]. rewrite Hall. apply in_seq. pose proof (hget_some _ _ _ Hq). lia. }
  assert (Img_of : forall p, In p nodes -> exists x', hget h' (phi p) = Some x').
  { intros p Hin. destruct (Have p Hin) as [x Hx]. destruct (I4 p x Hin Hx) as (x' & _ & E1 & _). now exists x'. }
  assert (Ref : forall x', inst_in h' (fnodes ts') x' -> no_cr (i_ref x') = true).
  { intros x' (q & _ & Hq). destruct (Img q x' Hq) as (p & x & y & P & _ & _ & Y & _ & -> & _). exact (Hclean p y P Y). }
  assert (Hst' : xml_storable h' (fnodes ts')).
  { constructor.
    - intros x' Hx'. split; [now apply Ref|]. destruct Hx' as (q & _ & Hq). exact (proj1 (Wf _ _ Hq)).
    - intros x' name w Hx' Hw. destruct (Good x' name w Hx' Hw) as (G1 & G2 & G3 & _). now split.
    - intros x' name q Hx' Hw Hq. destruct (Back x' name q Hx' Hw Hq) as (p & P & <-). destruct (Img_of p P) as [z Hz]. exists z. split; [exact Hz|]. apply Ref. exact (Inh _ _ Hz). }
  assert (Htt : text_tree (xe_fl env) h' (fnodes ts') r').
  { constructor.
    - intros x' name w Hx' Hw. now destruct (Good x' name w Hx' Hw) as (_ & _ & _ & G).
    - intros x' (q & _ & Hq). destruct (Img q x' Hq) as (p & x & y & _ & _ & _ & _ & -> & _). apply nl_out.
    - intros x' name q Hx' Hw Hq. destruct (Back x' name q Hx' Hw Hq) as (p & P & <-). rewrite Hall. apply in_seq. rewrite I1. specialize (Range p P). lia.
    - intros k v Hkv. cbn [r_metadata r'] in Hkv. apply (In_mfind _ _ _ Nmt) in Hkv. rewrite Hmt in Hkv. destruct (o_nometa (x_opts e)); [discriminate Hkv|].
      destruct (mfind (r_metadata r) k) as [u|] eqn:Eu; [|discriminate Hkv]. cbn [option_map] in Hkv. apply Some_eq in Hkv. subst v. split.
      + apply mfind_In in Eu. rewrite Forall_forall in Hmk. exact (Hmk (k, u) Eu).
      + apply nl_text_keeps. apply nl_text_twice. }
  assert (Hcol' : no_collision (xe_hash env) h' (fnodes ts')).
  { assert (Sub : forall s, In s (shared_strings h' (fnodes ts')) -> In s (shared_strings h nodes)).
    { intros s Hs. unfold shared_strings in Hs. apply in_flat_map in Hs as (q & Hq & Hs). destruct (hget h' q) as [x'|] eqn:Ex'; [|destruct Hs]. apply in_flat_map in Hs as ([name w] & Hin & Hs).
      cbn [snd] in Hs. destruct w; try (now destruct Hs). destruct Hs as [<-|[]]. apply (In_mfind _ _ _ (proj1 (Wf _ _ Ex'))) in Hin.
      destruct (Prop_ x' name _ (Inh _ _ Ex') Hin) as (x & v & X & Ev & W). apply prop_shared in W. subst v. exact (shared_strings_In h nodes x name _ X Ev). }
    intros s s' Hs Hs'. apply Hcol; now apply Sub. }
  assert (Hfuel' : length h' <= fuel) by (rewrite I1; etransitivity; [apply (nodes_le h ts Hf)|exact Hfuel]).
  intros rnd2 H16 Hnr2.
  destruct (C49_encode_total env rnd2 fuel e h' ts' r' Hfl H16 Hnr2 Hf' Hroots' Hst' Hfuel' Hp Hi Hn) as (out2 & h2 & HE2 & _).
  exists out2, h2. split; [exact HE2|]. intros out3. split.
  - intros Hc. exact (C100_cycles env rnd2 fuel e h' ts' r' [] out2 h2 SC H16 Hnr2 Hf' Hroots' Hst' Hfuel' Hp Hi Hn Hnoref Hcol' Nmt Htt HE2 out3 Hc).
  - intros ->. constructor.
Qed.
