(** PropBothWays.v - C104: a binary file that is converted to XML and back is
    the same file. *)
From Coq Require Import Permutation.
From Verif Require Import Base RbxlValues RbxlArrays RbxlModel RbxlFile RbxlFileProofs RbxValues Tree RbxlCodec RbxlApi
  SpecValues SpecArrays SpecModel SpecFile SpecTree SpecCodec TreeProofs SortProofs RbxlCodecEnc RbxlCodecShape RbxlResaveTree PropTree PropFile PropCodec PropCodecEx
  XmlText XmlDoc XmlCodec SpecXml XmlFloats SpecXmlValues PropXml PropXmlValues PropXmlKept XmlResave XmlTextProofs XmlLayout XmlFloatsProofs XmlFloatsFit
  PropXmlDecode PropXmlEx PropXmlResave SpecConvert Convert PropConvert PropConvertEx PropResave SpecSame SameTree PropSame.
Local Notation string := String.string.

Lemma moved_same fl phi v : kept (six fl) (nine fl) v -> same_value phi v (moved phi v).
Proof.
  intros Hk. destruct v; try (apply same_plain; intros; discriminate). apply same_reference.
Qed.
Lemma meta_list (m m' : list (bytes * bytes)) : length m <= 1 -> NoDup (map fst m') -> (forall k, mfind m' k = mfind m k) -> m' = m.
Proof.
  intros Hl Hn H. destruct m as [|[k v] [|kv m]]; [| |cbn in Hl; lia].
  - destruct m' as [|[k' v'] m']; [reflexivity|]. specialize (H k'). cbn [mfind] in H. rewrite bytes_eqb_refl in H. discriminate H.
  - assert (A : forall kv, In kv m' -> kv = (k, v)).
    { intros [k' v'] Hin. apply In_mfind in Hin; [|exact Hn]. rewrite H in Hin. cbn [mfind] in Hin. destruct (beqb_spec k k') as [->|]; [congruence|discriminate]. }
    destruct m' as [|kv1 m'].
    + specialize (H k). cbn [mfind] in H. rewrite bytes_eqb_refl in H. discriminate H.
    + rewrite (A kv1 (or_introl eq_refl)). destruct m' as [|kv2 m']; [reflexivity|]. exfalso.
      rewrite (A kv1 (or_introl eq_refl)), (A kv2 (or_intror (or_introl eq_refl))) in Hn. inversion Hn as [|? ? Hx _]; subst. apply Hx. now left.
Qed.
(** The tree read back from XML is written as the tree itself. *)
Lemma xml_keeps_bytes : forall env rnd fuel e h ts r ws out h0,
  strconv_ok (xe_fl env) -> (forall k, length (rnd k) = 16) -> never_repeats (length h) rnd ->
  forest_at h ts -> r_instances r = map rroot ts -> length (r_metadata r) <= 1 ->
  xml_storable h (fnodes ts) -> no_services h (fnodes ts) ->
  (forall x name v, inst_in h (fnodes ts) x -> mfind (i_props x) name = Some v -> kept (six (xe_fl env)) (nine (xe_fl env)) v) ->
  (forall x, inst_in h (fnodes ts) x -> no_cr (i_class x) = true) ->
  (forall k v, In (k, v) (r_metadata r) -> no_cr k = true /\ cr_leading v) ->
  no_collision (xe_hash env) h (fnodes ts) -> length h <= fuel ->
  blank (x_prefix e) -> blank (x_indent e) -> x_noroot e = false -> o_noref (x_opts e) = false -> o_nometa (x_opts e) = false ->
  xml_encode fuel env rnd e h (Some r) = OK (ws, out, h0) ->
  forall discard, exists r1 h1, xml_decode env discard out XEOF = OK (r1, h1, []) /\
    forall ev ev' lz place u, orders_ok ev -> orders_ok ev' -> (forall s, ev_hash ev' s = ev_hash ev s) ->
      Encoder_Encode ev' lz place u h1 (Some r1) = Encoder_Encode ev lz place u h (Some r).
Proof.
  intros env rnd fuel e h ts r ws out h0 SC Hrnd Hnr Hf Hr Hm Hst Hsv Hk Hc Hmd Hcol Hfuel Hp Hi Hn Hnoref Hnometa HE discard.
  assert (Hmn : NoDup (map fst (r_metadata r))).
  { destruct (r_metadata r) as [|kv [|]]; [constructor|constructor; [easy|constructor]|cbn in Hm; lia]. }
  assert (Hmk : Forall (fun kv => no_cr (fst kv) = true) (r_metadata r)) by (apply Forall_forall; intros [k v] Hkv; exact (proj1 (Hmd k v Hkv))).
  destruct (C50_roundtrip env rnd fuel e h ts r ws out h0 (strconv_floats_ok _ SC) Hrnd Hnr Hf Hr Hst Hfuel Hp Hi Hn Hcol Hmn Hmk HE discard XEOF)
    as (phi & h1 & mt & D & [I1 I2 I3 I4] & M1). rewrite Hnometa in M1.
  pose proof (decode_meta_keys _ _ _ _ _ _ _ D) as N1. cbn [r_metadata] in N1.
  assert (Em : mt = r_metadata r).
  { apply meta_list; [exact Hm|exact N1|]. intros k. rewrite M1. destruct (mfind (r_metadata r) k) as [v|] eqn:Ev; [|reflexivity]. cbn [option_map]. f_equal.
    apply nl_text_keeps. apply (Hmd k v). now apply mfind_In. }
  subst mt. eexists _, h1. split; [exact D|]. intros ev ev' lz place u Hev Hev' Hhash.
  replace (Some r) with (Some (Root (map rroot ts) (r_metadata r))) by (rewrite <- Hr; now destruct r). rewrite Hr.
  assert (Zero : ~ In 0 (fnodes ts)) by (intros Hin; destruct (forest_nodes h ts (proj1 Hf) 0 Hin) as [x Hx]; discriminate Hx).
  apply C102_same_bytes; try assumption; [split; [reflexivity|now left]|]. constructor.
  - now apply I3.
  - intros p q Hin E. destruct (in_dec Nat.eq_dec q (fnodes ts)) as [Hq|Hq]; [now apply I2|]. exfalso. rewrite (I3 q Hq) in E.
    destruct (forest_nodes h ts (proj1 Hf) p Hin) as [x Hx]. destruct (I4 p x Hin Hx) as (x' & _ & E1 & _). rewrite <- E in E1. discriminate E1.
  - intros p x Hin Hx. assert (Hxin : inst_in h (fnodes ts) x) by now exists p.
    destruct (I4 p x Hin Hx) as (x' & y & E1 & _ & E3 & E4 & E5 & _ & E7). rewrite Hnoref in E7. exists x'. split; [exact E1|].
    assert (F : forall name, mfind (i_props x') name = option_map (moved phi) (mfind (i_props x) name)).
    { intros name. rewrite E7. destruct (mfind (i_props x) name) as [v|] eqn:Ev; [|reflexivity]. cbn [option_map]. apply kept_prop; [exact SC|apply (xs_prop _ _ Hst x name v Hxin Ev)|exact (Hk x name v Hxin Ev)]. }
    constructor.
    + rewrite E3. apply nl_no_cr. now apply Hc.
    + rewrite E4. symmetry. now apply Hsv.
    + exact E5.
    + intros name v Hv. exists (moved phi v). split; [now rewrite F, Hv|]. eapply moved_same, Hk; eauto.
    + intros name Hv. now rewrite F, Hv.
Qed.

(** Save as XML and load: saved in the binary format the tree gives the same
    bytes and warnings, or the same error, as if there had been no XML. *)
Theorem C104_xml_keeps_bytes : forall env rnd fuel e h ts r ws out h0,
  strconv_ok (xe_fl env) -> (forall k, length (rnd k) = 16) -> never_repeats (length h) rnd ->
  forest_at h ts -> r_instances r = map rroot ts -> length (r_metadata r) <= 1 ->
  xml_storable h (fnodes ts) -> no_services h (fnodes ts) ->
  both_formats (six (xe_fl env)) (nine (xe_fl env)) h (fnodes ts) r ->
  no_collision (xe_hash env) h (fnodes ts) -> length h <= fuel ->
  blank (x_prefix e) -> blank (x_indent e) -> x_noroot e = false -> o_noref (x_opts e) = false -> o_nometa (x_opts e) = false ->
  xml_encode fuel env rnd e h (Some r) = OK (ws, out, h0) ->
  forall discard, exists r1 h1, xml_decode env discard out XEOF = OK (r1, h1, []) /\
    forall ev ev' lz place u, orders_ok ev -> orders_ok ev' -> (forall s, ev_hash ev' s = ev_hash ev s) ->
      Encoder_Encode ev' lz place u h1 (Some r1) = Encoder_Encode ev lz place u h (Some r).
Proof.
  intros env rnd fuel e h ts r ws out h0 SC Hrnd Hnr Hf Hr Hm Hst Hsv [B1 B2 B3 B4]. intros. eapply xml_keeps_bytes; eauto.
Qed.
(** Save in the binary format, load, save as XML, load, save in the binary
    format: the last file is the first. *)
Theorem C104_binary_xml_binary : forall ev lz spare q2m xml noXML place u env rnd fuel e h ts r ws b,
  orders_ok ev -> lossless lz -> strconv_ok (xe_fl env) -> (forall k, length (rnd k) = 16) -> never_repeats (length (fnodes ts)) rnd ->
  forest_at h ts -> r_instances r = map rroot ts -> length (r_metadata r) <= 1 ->
  storable h (fnodes ts) -> fits_file h (fnodes ts) r -> (place = true -> no_services h (fnodes ts)) ->
  both_formats (six (xe_fl env)) (nine (xe_fl env)) h (fnodes ts) r -> plain_binary h (fnodes ts) ->
  no_collision (ev_hash ev) h (fnodes ts) -> no_collision (xe_hash env) h (fnodes ts) -> length (fnodes ts) <= fuel ->
  blank (x_prefix e) -> blank (x_indent e) -> x_noroot e = false -> o_noref (x_opts e) = false -> o_nometa (x_opts e) = false ->
  Encoder_Encode ev lz place u h (Some r) = OK (ws, b) -> len32 b ->
  exists r1 h1 out h2, Decoder_Decode lz spare q2m xml noXML b = OK (r1, h1, []) /\
    xml_encode fuel env rnd e h1 (Some r1) = OK ([], out, h2) /\
    forall discard, exists r3 h3, xml_decode env discard out XEOF = OK (r3, h3, []) /\
      forall ev2, orders_ok ev2 -> (forall s, ev_hash ev2 s = ev_hash ev s) ->
        Encoder_Encode ev2 lz place u h3 (Some r3) = OK (ws, b) /\
        forall lz2 u2, Encoder_Encode ev2 lz2 place u2 h3 (Some r3) = Encoder_Encode ev lz2 place u2 h (Some r).
Proof.
  intros ev lz spare q2m xml noXML place u env rnd fuel e h ts r ws b Hev Hlz SC Hrnd Hnr Hf Hr Hm Hst Hff Hsv Hb4 Hpb Hcol Hcol2 Hfuel Hp Hi Hn Hnoref Hnometa H Hb.
  assert (Hmn : NoDup (map fst (r_metadata r))).
  { destruct (r_metadata r) as [|kv [|]]; [constructor|constructor; [easy|constructor]|cbn in Hm; lia]. }
  destruct (loaded_for_xml ev lz spare q2m xml noXML place u env h ts r ws b Hev Hlz SC Hf Hr Hmn Hst Hff Hb4 Hpb Hcol Hcol2 H Hb)
    as (phi & h1 & mt & fs & D1 & I1 & I2 & I3 & Hfs & I4 & M1 & N1 & F1 & Val & Hst1 & Hcol1 & Hmk).
  destruct Hb4 as [B1 B2 B3 B4].
  destruct (C99_same_tree ev lz spare q2m xml noXML place u h r ts ws b Hev Hlz Hf Hr Hm Hst Hff Hcol H Hb) as (r' & h' & D' & Again).
  assert (E := eq_trans (eq_sym D1) D'). injection E as <- <-. clear D'.
  set (nodes := fnodes ts) in *. set (ts1 := map (rtmap phi) ts) in *. set (r1 := Root (map phi (r_instances r)) mt) in *.
  assert (Em : mt = r_metadata r) by (apply meta_list; assumption).
  assert (En : fnodes ts1 = map phi nodes) by apply fnodes_map.
  assert (Hr1 : r_instances r1 = map rroot ts1) by (unfold r1, ts1; cbn [r_instances]; now rewrite rroots_map, Hr).
  assert (Have : forall p, In p nodes -> exists x, hget h p = Some x) by (intros p Hin; exact (forest_nodes h ts (proj1 Hf) p Hin)).
  assert (From : forall x', inst_in h1 (fnodes ts1) x' -> exists p x, In p nodes /\ hget h p = Some x /\ hget h1 (phi p) = Some x' /\ image_inst place h nodes phi fs x x').
  { intros x' (p' & Hp' & Hx'). rewrite En in Hp'. apply in_map_iff in Hp' as (p & <- & Hin). destruct (Have p Hin) as [x Hx]. destruct (I4 p x Hin Hx) as (y & Hy & II).
    assert (y = x') by congruence. subst y. now exists p, x. }
  assert (Hl1 : length h1 = length (fnodes ts1)) by (rewrite En, map_length; exact I1).
  assert (Hnr1 : never_repeats (length h1) rnd) by now rewrite I1.
  assert (Hf1 : length h1 <= fuel) by now rewrite I1.
  destruct (C49_encode_total env rnd fuel e h1 ts1 r1 (strconv_floats_ok _ SC) Hrnd Hnr1 F1 Hr1 Hst1 Hf1 Hp Hi Hn) as (out & h2 & HE & _).
  exists r1, h1, out, h2. split; [exact D1|]. split; [exact HE|]. intros discard.
  assert (G : exists r3 h3, xml_decode env discard out XEOF = OK (r3, h3, []) /\
    forall ev ev' lz place u, orders_ok ev -> orders_ok ev' -> (forall s, ev_hash ev' s = ev_hash ev s) ->
      Encoder_Encode ev' lz place u h3 (Some r3) = Encoder_Encode ev lz place u h1 (Some r1)).
  { apply (xml_keeps_bytes env rnd fuel e h1 ts1 r1 [] out h2 SC Hrnd Hnr1 F1 Hr1); try assumption.
    - unfold r1. cbn [r_metadata]. now rewrite Em.
    - intros x' Hx'. destruct (From x' Hx') as (p & x & Hin & Hx & _ & II). rewrite (ii_service _ _ _ _ _ _ _ II). destruct place; [|reflexivity]. apply (Hsv eq_refl). now exists p.
    - intros x' name v' Hx' Hv. destruct (From x' Hx') as (p & x & Hin & Hx & Hy & II). exact (proj1 (proj2 (proj1 (Val p x x' name v' Hin Hx Hy II Hv)))).
    - intros x' Hx'. destruct (From x' Hx') as (p & x & Hin & Hx & _ & II). rewrite (ii_class _ _ _ _ _ _ _ II). apply B3. now exists p.
    - unfold r1. cbn [r_metadata]. now rewrite Em. }
  destruct G as (r3 & h3 & D3 & G). exists r3, h3. split; [exact D3|]. intros ev2 Hev2 Hh2.
  destruct (Again ev2 Hev2 Hh2) as [(f2 & Ef) Ag].
  assert (All : forall lz2 u2, Encoder_Encode ev2 lz2 place u2 h3 (Some r3) = Encoder_Encode ev lz2 place u2 h (Some r)).
  { intros lz2 u2. rewrite <- Ag. apply G; [exact Hev2|exact Hev2|reflexivity]. }
  split; [|exact All]. now rewrite All.
Qed.

(** ** Where it fails: services *)
Definition one_service : heap := [Inst (str "Lighting") [] true [] []].
Theorem C104_service_refuted : exists r1 h1 out h2 r3 h3 b b3,
  Encoder_Encode ex_env toy_lz true false one_service (Some (Root [1] [])) = OK ([], b) /\ load_binary b = OK (r1, h1, []) /\
  xml_encode 9 plain_env counter std h1 (Some r1) = OK ([], out, h2) /\ xml_decode plain_env false out XEOF = OK (r3, h3, []) /\
  Encoder_Encode ex_env toy_lz true false h3 (Some r3) = OK ([], b3) /\ b3 <> b.
Proof.
  do 8 eexists. split; [vm_compute; reflexivity|]. split; [vm_compute; reflexivity|]. split; [vm_compute; reflexivity|]. split; [vm_compute; reflexivity|].
  split; [vm_compute; reflexivity|]. discriminate.
Qed.

(** ** A concrete tree: that of C101, without the service *)
Definition unserve (x : inst) : inst := Inst (i_class x) (i_ref x) false (i_props x) (i_children x).
Definition dx_heap : heap := map unserve cx_heap.
Lemma dx_inst x : inst_in dx_heap (fnodes cx_ts) x -> exists y, inst_in cx_heap (fnodes cx_ts) y /\ x = unserve y.
Proof.
  intros (p & Hp & Hx). destruct p as [|p]; [discriminate|]. cbn [hget dx_heap] in Hx. unfold dx_heap in Hx. rewrite nth_error_map in Hx.
  destruct (nth_error cx_heap p) as [y|] eqn:Ey; [|discriminate]. cbn [option_map] in Hx. apply Some_eq in Hx. exists y. split; [now exists (S p)|easy].
Qed.
Ltac dx H := apply dx_inst in H as (?y & H & ->); cbn [unserve i_class i_ref i_props i_children] in *.
Lemma dx_storable : storable dx_heap (fnodes cx_ts).
Proof.
  destruct cx_storable as [A1 A2 A3 A4 A5 A6]. constructor; [exact A1|exact A2|..].
  - intros x Hx. dx Hx. now apply A3.
  - intros x name v Hx. dx Hx. now apply A4.
  - intros x name t v Hx. dx Hx. now apply A5.
  - intros x y name t u v w Hx Hy. dx Hx. dx Hy. now apply A6.
Qed.
Lemma dx_fits : fits_file dx_heap (fnodes cx_ts) cx_root.
Proof. destruct cx_fits as [A1 A2 A3]. constructor; [exact A1|exact A2|]. intros x name t v Hx. dx Hx. now apply A3. Qed.
Lemma dx_xml : xml_storable dx_heap (fnodes cx_ts).
Proof.
  destruct cx_xml as [A1 A2 A3]. constructor.
  - intros x Hx. dx Hx. now apply A1.
  - intros x name v Hx. dx Hx. now apply A2.
  - intros x name q Hx. dx Hx. intros Hq Hz. destruct (A3 _ name q Hx Hq Hz) as (z & Hz1 & Hz2). exists (unserve z). split; [|exact Hz2].
    destruct q as [|q]; [discriminate|]. cbn [hget] in *. unfold dx_heap. now rewrite nth_error_map, Hz1.
Qed.
Lemma dx_both : both_formats (six (xe_fl plain_env)) (nine (xe_fl plain_env)) dx_heap (fnodes cx_ts) cx_root.
Proof.
  destruct cx_both as [A1 A2 A3 A4]. constructor; [..|exact A4].
  - intros x name v Hx. dx Hx. now apply A1.
  - intros x name v Hx. dx Hx. now apply A2.
  - intros x Hx. dx Hx. now apply A3.
Qed.
Example C104_witness :
  orders_ok ex_env /\ lossless toy_lz /\ strconv_ok (xe_fl plain_env) /\ (forall k, length (counter k) = 16) /\ never_repeats (length dx_heap) counter /\
  never_repeats (length (fnodes cx_ts)) counter /\ forest_at dx_heap cx_ts /\ r_instances cx_root = map rroot cx_ts /\ length (r_metadata cx_root) = 1 /\
  storable dx_heap (fnodes cx_ts) /\ xml_storable dx_heap (fnodes cx_ts) /\ fits_file dx_heap (fnodes cx_ts) cx_root /\ no_services dx_heap (fnodes cx_ts) /\
  both_formats (six (xe_fl plain_env)) (nine (xe_fl plain_env)) dx_heap (fnodes cx_ts) cx_root /\ plain_binary dx_heap (fnodes cx_ts) /\
  no_collision (ev_hash ex_env) dx_heap (fnodes cx_ts) /\ no_collision (xe_hash plain_env) dx_heap (fnodes cx_ts) /\
  o_noref (x_opts std) = false /\ o_nometa (x_opts std) = false /\
  exists ws b r1 h1 out h2 r3 h3,
    Encoder_Encode ex_env toy_lz true false dx_heap (Some cx_root) = OK (ws, b) /\ len32 b /\ load_binary b = OK (r1, h1, []) /\
    xml_encode 9 plain_env counter std h1 (Some r1) = OK ([], out, h2) /\ xml_decode plain_env false out XEOF = OK (r3, h3, []) /\
    r_instances r3 <> r_instances r1 /\ Encoder_Encode ex_env toy_lz true false h3 (Some r3) = OK (ws, b).
Proof.
  split; [exact ex_orders|]. split; [exact toy_lossless|]. split; [exact plain_strconv_ok|]. split; [exact counter_16|].
  split; [eapply never_repeats_le; [|exact counter_never_repeats]; cbn; lia|]. split; [eapply never_repeats_le; [|exact counter_never_repeats]; cbn; lia|].
  split. { split; [repeat (econstructor; try reflexivity)|exact (proj2 cx_forest)]. }
  split; [reflexivity|]. split; [reflexivity|]. split; [exact dx_storable|]. split; [exact dx_xml|]. split; [exact dx_fits|].
  split; [intros x Hx; dx Hx; reflexivity|]. split; [exact dx_both|]. split; [intros x name s Hx; dx Hx; now apply cx_binary|]. split; [intros s s' _ _ H; exact H|].
  split. { intros s s' Hs Hs' E. vm_compute in Hs, Hs'. repeat (destruct Hs as [Hs|Hs]; [|]); repeat (destruct Hs' as [Hs'|Hs']; [|]); try contradiction; subst; try reflexivity; discriminate E. }
  split; [reflexivity|]. split; [reflexivity|]. do 8 eexists. split; [vm_compute; reflexivity|]. split; [vm_compute; reflexivity|]. split; [vm_compute; reflexivity|].
  split; [vm_compute; reflexivity|]. split; [vm_compute; reflexivity|]. split; [vm_compute; discriminate|]. vm_compute. reflexivity.
Qed.
Print Assumptions C104_xml_keeps_bytes.
Print Assumptions C104_binary_xml_binary.
Print Assumptions C104_service_refuted.
