(** PropXml.v - properties of the XML format: trees survive a file. *)
From Coq Require Import Permutation.
From Verif Require Import Base RbxlValues RbxValues Tree RbxlCodec SpecValues SpecTree SpecCodec SortProofs TreeProofs RbxlCodecEnc PropTree
  XmlText XmlDoc XmlCodec SpecXml XmlTextProofs XmlLayout XmlBare XmlValues XmlTreeEnc XmlTreeDec XmlRound.
Local Notation string := String.string.

Lemma write_plain env rnd h ts Pool o r s' items sh discard : INV env rnd h Pool s' ->
  (forall rho K, fits rho K s' -> Forall2 (itag env discard h (o_noref o) rho K) ts items) -> shared_strings_tag (re_shared s') = OK sh ->
  plain_tag (root_tag o r items sh) = true.
Proof.
  intros HI HF Es. apply root_plain.
  - assert (F : Forall2 (itag env discard h (o_noref o) (fun p => match hget (re_heap s') p with Some i => i_ref i | None => [] end) (fun _ _ => True)) ts items).
    { apply HF. split; [|now intros]. intros k q Hk. destruct HI as ((_ & _ & R & _) & _). destruct (R k q Hk) as (_ & _ & i & Hi' & <-). now rewrite Hi'. }
    clear -F. induction F as [|t tg ts tgs Ht _ IH]; [reflexivity|]. cbn [forallb]. rewrite IH, andb_true_r. now apply plain_items in Ht.
  - destruct (shared_strings_tag_ok (re_shared s')) as (sh' & Es' & P & _). rewrite Es in Es'. injection Es' as <-. exact P.
Qed.

(** ** C49: Encode succeeds on forests *)
Theorem C49_encode_total : forall env rnd fuel e h ts r,
  floats_ok (xe_fl env) -> (forall k, length (rnd k) = 16) -> never_repeats (length h) rnd ->
  forest_at h ts -> r_instances r = map rroot ts -> xml_storable h (fnodes ts) -> length h <= fuel ->
  blank (x_prefix e) -> blank (x_indent e) -> x_noroot e = false ->
  exists out h1, xml_encode fuel env rnd e h (Some r) = OK ([], out, h1) /\
    length h1 = length h /\
    (forall p i, hget h p = Some i -> exists i', hget h1 p = Some i' /\ same_but_ref i i') /\
    (forall p i, In p (fnodes ts) -> hget h1 p = Some i -> IsEmptyReference (i_ref i) = false) /\
    (forall p q i j, In p (fnodes ts) -> In q (fnodes ts) -> hget h1 p = Some i -> hget h1 q = Some j -> i_ref i = i_ref j -> p = q).
Proof.
  intros env rnd fuel e h ts r Hfl Hrnd Hnr Hf Hroots Hst Hfuel Hp Hi Hn.
  destruct (write_ok env rnd h ts (x_opts e) r Hfl Hrnd Hnr Hf Hroots Hst fuel Hfuel) as (items & sh & s' & E & Es & HI & HF).
  unfold xml_encode. rewrite E. cbn [obind].
  set (d := Doc _ _ _ _ _ _).
  assert (Hpl : plain_tag (root_tag (x_opts e) r items sh) = true) by (eapply write_plain; [exact HI|exact (HF false)|exact Es]).
  destruct (document_roundtrip d (root_tag (x_opts e) r items sh) XEOF) as [W _]; try assumption; try reflexivity.
  { now right. }
  { subst d. cbn [doc_indent]. destruct (_ && _); [reflexivity|exact Hi]. }
  destruct (WriteTo d) as [w out]. cbn [fst] in W. subst w.
  exists out, (re_heap s'). split; [reflexivity|].
  destruct (all_known env rnd h ts (x_opts e) s' items false HI (HF false)) as [KN _].
  pose proof HI as ((_ & R1 & R2 & _) & HL & _). split; [exact HL|]. split; [exact R1|].
  assert (G : forall p i, In p (fnodes ts) -> hget (re_heap s') p = Some i -> mfind (re_refs s') (i_ref i) = Some p).
  { intros p i Hin Hg. pose proof (KN p Hin) as [[_ H]|[-> _]]; [|discriminate Hg]. now rewrite Hg in H. }
  split.
  - intros p i Hin Hg. now destruct (R2 _ _ (G p i Hin Hg)) as (_ & ? & _).
  - intros p q i j Hin Hin' Hg Hg' E'. pose proof (G _ _ Hin Hg) as G1. pose proof (G _ _ Hin' Hg') as G2. rewrite E' in G1. congruence.
Qed.

(** ** C50: Decode of what Encode wrote *)
Theorem C50_roundtrip : forall env rnd fuel e h ts r ws out h1,
  floats_ok (xe_fl env) -> (forall k, length (rnd k) = 16) -> never_repeats (length h) rnd ->
  forest_at h ts -> r_instances r = map rroot ts -> xml_storable h (fnodes ts) -> length h <= fuel ->
  blank (x_prefix e) -> blank (x_indent e) -> x_noroot e = false ->
  no_collision (xe_hash env) h (fnodes ts) ->
  NoDup (map fst (r_metadata r)) -> Forall (fun kv => no_cr (fst kv) = true) (r_metadata r) ->
  xml_encode fuel env rnd e h (Some r) = OK (ws, out, h1) ->
  forall discard end_, exists phi h' mt,
    xml_decode env discard out end_ = OK (Root (map phi (r_instances r)) mt, h', []) /\
    xml_image (xe_fl env) discard (o_noref (x_opts e)) h h1 (fnodes ts) phi h' /\
    forall k, mfind mt k = if o_nometa (x_opts e) then None else option_map nl_text (mfind (r_metadata r) k).
Proof.
  intros env rnd fuel e h ts r ws out h1 Hfl Hrnd Hnr Hf Hroots Hst Hfuel Hp Hi Hn Hcol Hmd Hmk HE discard end_.
  destruct (write_ok env rnd h ts (x_opts e) r Hfl Hrnd Hnr Hf Hroots Hst fuel Hfuel) as (items & sh & s' & E & Es & HI & HF).
  unfold xml_encode in HE. rewrite E in HE. cbn [obind] in HE.
  set (d := Doc _ _ _ _ _ _) in HE.
  assert (Hpl : plain_tag (root_tag (x_opts e) r items sh) = true) by (eapply write_plain; [exact HI|exact (HF false)|exact Es]).
  destruct (document_roundtrip d (root_tag (x_opts e) r items sh) end_) as [W (p & i & t' & Er & Eb)]; try assumption; try reflexivity.
  { now right. }
  { subst d. cbn [doc_indent]. destruct (_ && _); [reflexivity|exact Hi]. }
  destruct (WriteTo d) as [w out']. cbn [fst snd] in W, Er. apply OK_pair' in HE as [HE <-]. apply pair_equal_spec in HE as [_ <-].
  set (nodes := fnodes ts).
  destruct (read_ok env rnd h ts (x_opts e) r Hf s' items sh discard HI (HF discard) Es Hmd Hmk []) as (mt & Erd & Hmt).
  unfold xml_decode. rewrite Er.
  rewrite (codec_read_bare env discard p i (doc_suffix d) false t' [] [] [] [] false (settled (root_tag (x_opts e) r items sh))) by (now rewrite bare_settled).
  rewrite Erd. eexists _, _, mt. rewrite Hroots. split; [reflexivity|]. split; [|exact Hmt].
  exact (heap_image env rnd h ts (x_opts e) Hf Hst s' items discard HI (HF discard) Hcol).
Qed.
