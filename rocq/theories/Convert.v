(** Convert.v - what the binary format makes of a tree can be written as XML. *)
From Coq Require Import Permutation.
From Verif Require Import Base RbxlValues RbxlArrays RbxlModel RbxlFile RbxlFileProofs RbxValues Tree RbxlCodec RbxlApi
  SpecValues SpecArrays SpecModel SpecFile SpecTree SpecCodec TreeProofs SortProofs PropCodecValues RbxlCodecEnc RbxlCodecCols
  RbxlCodecOut RbxlCodecShape RbxlCodecDec RbxlCodecRound RbxlCodecFile RbxlCodecImage RbxlResave RbxlResaveTree PropFile PropCodec
  XmlText XmlDoc XmlCodec SpecXml XmlFloats SpecXmlValues PropXmlValues XmlTreeWrites XmlResave SpecConvert.
Local Notation string := String.string.

(** ** Decoded instances have different property names *)
Definition keys_ok (h : heap) : Prop := forall p x, hget h p = Some x -> NoDup (map fst (i_props x)).
Lemma keys_hset h p x : keys_ok h -> NoDup (map fst (i_props x)) -> keys_ok (hset h p x).
Proof.
  intros H Hx q y. rewrite hget_hset. destruct (q =? p) eqn:E; [|apply H]. destruct (hget h p); [|discriminate]. intros Hy. apply Some_eq in Hy. now subst y.
Qed.
Lemma keys_insts bound class svc : forall ids gs h lk h' lk', keys_ok h -> dec_insts bound class svc gs ids h lk = OK (h', lk') -> keys_ok h'.
Proof.
  induction ids as [|id ids IH]; intros gs h lk h' lk' H E; cbn [dec_insts] in E.
  - apply OK_pair in E as [<- _]. exact H.
  - destruct (out_of_bounds id bound); [discriminate|]. destruct (lfind lk id); [discriminate|]. eapply IH; [|exact E].
    intros p x. destruct p as [|p]; [discriminate|]. cbn [hget]. intros Hx. destruct (Nat.lt_ge_cases p (length h)).
    + rewrite nth_error_app1 in Hx by assumption. exact (H (S p) x Hx).
    + rewrite nth_error_app2 in Hx by assumption. destruct (p - length h) as [|k]; [|destruct k; discriminate Hx]. apply Some_eq in Hx. subst x. constructor.
Qed.
Lemma keys_props q2m lk shared name a : forall ids i h h', keys_ok h -> dec_props q2m lk shared name a i ids h = OK h' -> keys_ok h'.
Proof.
  induction ids as [|id ids IH]; intros i h h' H E; cbn [dec_props] in E; [now injection E as <-|].
  apply bind_OK in E as (v & _ & E). destruct (hget h (lget lk id)) as [x|] eqn:Ex; [|discriminate].
  eapply IH; [|exact E]. apply keys_hset; [exact H|]. cbn [i_props set_props]. apply mset_keys. exact (H _ _ Ex).
Qed.
Lemma keys_links ic bound lk : forall l i h rt ws h' rt' ws', keys_ok h -> dec_links ic bound lk i l h rt ws = OK (h', rt', ws') -> keys_ok h'.
Proof.
  induction l as [|[c p] l IH]; intros i h rt ws h' rt' ws' H E; cbn [dec_links] in E; [injection E as <- _ _; exact H|].
  destruct (out_of_bounds c bound); [discriminate|]. destruct (lget lk c =? 0)%nat; [exact (IH _ _ _ _ _ _ _ H E)|]. destruct (_ =? _)%Z; [exact (IH _ _ _ _ _ _ _ H E)|].
  destruct (lfind lk p) as [pp|]; [|exact (IH _ _ _ _ _ _ _ H E)]. destruct (hget h pp) as [x|] eqn:Ex; [|discriminate].
  refine (IH _ _ _ _ _ _ _ _ E). apply keys_hset; [exact H|]. exact (H _ _ Ex).
Qed.
Lemma keys_chunk q2m f ic p s s' : keys_ok (k_heap s) -> NoDup (map fst (k_meta s)) -> dec_chunk q2m f ic p s = OK s' ->
  keys_ok (k_heap s') /\ NoDup (map fst (k_meta s')).
Proof.
  intros H Hm E. unfold dec_chunk, cfail in E. destruct p; try (injection E as <-; now split).
  - injection E as <-. split; [exact H|]. cbn [k_meta]. exact (msets_keys values _ Hm).
  - destruct (out_of_bounds _ _); [discriminate|]. destruct (_ && _); [discriminate|].
    destruct (dec_insts _ _ _ _ _ _ _) as [[h' lk']| | |] eqn:Ei; try discriminate. destruct (group_get _ _) as [[pos ids0]|]; [|discriminate].
    destruct (pos =? ic)%nat; [|discriminate]. injection E as <-. split; [exact (keys_insts _ _ _ _ _ _ _ _ _ H Ei)|exact Hm].
  - destruct (out_of_bounds _ _); [discriminate|]. destruct (group_get _ _) as [[pos ids0]|]; [|injection E as <-; now split].
    destruct props as [a|]; [|injection E as <-; now split]. destruct (negb _); [discriminate|].
    destruct (dec_props _ _ _ _ _ _ _ _) eqn:Ei; try discriminate. injection E as <-. split; [exact (keys_props _ _ _ _ _ _ _ _ _ H Ei)|exact Hm].
  - destruct (negb _); [discriminate|]. destruct (negb _); [discriminate|].
    destruct (dec_links _ _ _ _ _ _ _ _) as [[[h' rt] ws]|[? ?]| |] eqn:Ei; try discriminate. injection E as <-. split; [exact (keys_links _ _ _ _ _ _ _ _ _ _ _ H Ei)|exact Hm].
Qed.
Lemma keys_list q2m f : forall cs ic s s', keys_ok (k_heap s) -> NoDup (map fst (k_meta s)) -> dec_chunk_list q2m f ic cs s = OK s' ->
  keys_ok (k_heap s') /\ NoDup (map fst (k_meta s')).
Proof.
  induction cs as [|c cs IH]; intros ic s s' H Hm E; cbn [dec_chunk_list] in E; [injection E as <-; now split|].
  assert (D : (exists content, ch_payload c = PEnd content) \/ exists s1, dec_chunk q2m f ic (ch_payload c) s = OK s1 /\ dec_chunk_list q2m f (S ic) cs s1 = OK s').
  { destruct (ch_payload c); try (apply bind_OK in E; right; exact E). left. eauto. }
  destruct D as [[content Ep]|(s1 & E1 & E2)].
  - rewrite Ep in E. injection E as <-. now split.
  - destruct (keys_chunk _ _ _ _ _ _ H Hm E1). eapply IH; eauto.
Qed.
Lemma decoded_keys q2m f r h ws : codec_decode q2m f = OK (r, h, ws) -> keys_ok h /\ NoDup (map fst (r_metadata r)).
Proof.
  unfold codec_decode. intros E. apply bind_OK in E as (s & E & E1). injection E1 as <- <- _. apply (keys_list _ _ _ _ _ _) in E; [exact E| |constructor].
  intros p x. cbn. destruct p as [|p]; [|destruct p]; discriminate.
Qed.

(** ** The decoded tree *)
Lemma binary_loaded : forall ev lz spare q2m xml noXML place u h r ts ws b,
  orders_ok ev -> lossless lz ->
  forest_at h ts -> r_instances r = map rroot ts -> NoDup (map fst (r_metadata r)) ->
  storable h (fnodes ts) -> fits_file h (fnodes ts) r -> no_collision (ev_hash ev) h (fnodes ts) ->
  Encoder_Encode ev lz place u h (Some r) = OK (ws, b) -> len32 b ->
  exists phi h' mt, Decoder_Decode lz spare q2m xml noXML b = OK (Root (map phi (r_instances r)) mt, h', []) /\
    image place h (fnodes ts) phi h' /\ (forall k, mfind mt k = mfind (r_metadata r) k) /\ NoDup (map fst mt) /\
    forest_at h' (map (rtmap phi) ts) /\ keys_ok h' /\
    forall p x x' name v', In p (fnodes ts) -> hget h p = Some x -> hget h' (phi p) = Some x' -> mfind (i_props x') name = Some v' ->
      exists w, written_prop place h (fnodes ts) (i_class x) name w /\ (mfind (i_props x) name = Some w \/ mfind (i_props x) name = None).
Proof.
  intros ev lz spare q2m xml noXML place u h r ts ws b Hev Hlz Hf Hr Hm Hst Hff Hcol H Hb.
  destruct (forest_holds h ts Hf) as [xs Hx]. unfold Encoder_Encode in H.
  destruct (encode_general ev place h r ts xs (shared_strings h (fnodes ts)) Hev Hf Hr (st_count _ _ Hst) Hcol (st_strings _ _ Hst) Hx
    (shape_insts h ts xs Hst Hx) (shape_opts h ts xs Hst Hx)) as (m & sh & cl & entries & cws & Hpi & E).
  assert (Hp : pieces ev place h r ts xs m sh cl entries cws) by (destruct Hpi; constructor; assumption).
  rewrite E in H. cbn [obind] in H.
  pose proof (shape_wf ev place h r ts xs Hst Hff Hx m sh cl entries cws Hp) as Hwf.
  pose proof H as H0. unfold encode in H0. apply bind_OK in H0. destruct H0 as ([w0 b0] & E0 & H0). apply OK_pair in H0. destruct H0 as [<- _].
  pose proof (shape_no_warn ev place h r ts xs Hx m sh cl entries cws Hp lz u _ E0) as Hw. cbn [fst] in Hw. subst w0. clear E0.
  assert (Hc1 : f32 (N.of_nat (length cl))).
  { pose proof (classes_le xs cl (pc_classes _ _ _ _ _ _ _ _ _ _ _ Hp)). pose proof (holds_length _ _ _ Hx). pose proof (st_count _ _ Hst). unfold f32. lia. }
  assert (Hc2 : f32 (N.of_nat (length (fnodes ts)))) by (pose proof (st_count _ _ Hst); unfold f32; lia).
  destruct (C16_file_roundtrip lz spare noXML u (FModel 0 (N.of_nat (length cl)) (N.of_nat (length (fnodes ts))) (shape_chunks place ts xs m sh cl entries) [] []) _ _ Hlz eq_refl Hc1 Hc2 Hwf Hb H) as [st Ed].
  set (f := FModel 0 (N.of_nat (length cl)) (N.of_nat (length (fnodes ts))) (map (written u) (shape_chunks place ts xs m sh cl entries)) []
       (grow_all [] 0 (shape_chunks place ts xs m sh cl entries))) in *.
  assert (Hch : map ch_payload (fm_chunks f) = map ch_payload (map stored_chunk (shape_chunks place ts xs m sh cl entries))).
  { unfold f. cbn [fm_chunks]. rewrite !map_map. reflexivity. }
  destruct (decode_shape_full ev place h r ts xs Hf Hr Hst Hx m sh cl entries cws Hp q2m f eq_refl eq_refl Hch eq_refl Hm) as (lk & h' & mt & Er & Hi & Hmt & Hlk & Hex & _).
  destruct (decoded_keys _ _ _ _ _ Er) as [K1 K2].
  destruct (holds_exists h' (map (RbxlCodecImage.phi ts lk) (fnodes ts))) as [xs' Hx'].
  { intros p' Hp'. apply in_map_iff in Hp'. destruct Hp' as (p & <- & Hp'). destruct (forest_nodes h ts (proj1 Hf) p Hp') as [x Hxp].
    destruct (im_inst _ _ _ _ _ Hi) as (fs & _ & Hii). destruct (Hii p x Hp' Hxp) as (x' & Hx1 & _). eauto. }
  exists (RbxlCodecImage.phi ts lk), h', mt. split.
  { unfold Decoder_Decode. rewrite Ed. cbn [fm_classCount fm_instCount fm_chunks fm_trailing map app]. fold f. cbn [fm_trailing]. rewrite Er. reflexivity. }
  split; [exact Hi|]. split; [exact Hmt|]. split; [exact K2|]. split; [exact (forest' place h ts Hf lk h' Hi)|]. split; [exact K1|].
  intros p x x' name v' Hpn Hpx Hpx' Hv. apply In_nth_error in Hpn as [k Hk].
  destruct (holds_nth_l _ _ _ _ _ Hx Hk) as (y & Hy & Hgy). assert (y = x) by congruence. subst y.
  assert (Hk' : nth_error (map (RbxlCodecImage.phi ts lk) (fnodes ts)) k = Some (RbxlCodecImage.phi ts lk p)) by (rewrite nth_error_map, Hk; reflexivity).
  destruct (holds_nth_l _ _ _ _ _ Hx' Hk') as (y' & Hy' & Hgy'). assert (y' = x') by congruence. subst y'.
  destruct (value_from ev place h r ts xs Hf Hst Hx m sh cl entries cws Hp q2m f eq_refl eq_refl Hch eq_refl lk h' xs' Hi Hex Hx' k x' name v' Hy' Hv)
    as (j & a & c & mm & x0 & V1 & V2 & V3 & V4 & _).
  destruct (pc_entry _ _ _ _ _ _ _ _ _ _ _ Hp _ _ _ V1) as (c' & ct & Hj & Hkc & _). assert (c' = c) by congruence. subst c'.
  assert (Hm0 : In (k, x0) (mem xs c)) by (eapply nth_error_In; eauto). apply mem_In in Hm0 as [Hm1 Hm2]. assert (x0 = x) by congruence. subst x0. rewrite <- Hm2 in Hkc.
  assert (Hmem : In x (members xs (i_class x))) by (apply members_In; split; [eapply nth_error_In; eauto|reflexivity]).
  destruct (mfind (i_props x) name) as [v|] eqn:Ev.
  - exists v. split; [|now left]. eapply written_kept; [exact Hx|exact Hkc|]. apply prop_values_In. now exists x.
  - destruct (prop_values (members xs (i_class x)) name) as [|w pv] eqn:E2; [destruct Hkc as [Hkc _]; contradiction|].
    exists w. split; [|now right]. eapply written_kept; [exact Hx|exact Hkc|]. rewrite E2. now left.
Qed.

(** ** Values *)
Section Values.
Variable fl : floats.
Hypothesis SC : strconv_ok fl.
Lemma zero_number : number32 0.
Proof. left. discriminate. Qed.
Lemma form_zero : format_g F32 6 0 = str "0" /\ format_g F64 9 0 = str "0" /\ fixFloatExp (str "0") 3 = OK (str "0") /\
  exists v, dec_parse (str "0") = Some v /\ round_to F32 v = Some 0%N /\ round_to F64 v = Some 0%N.
Proof. split; [vm_compute; reflexivity|]. split; [vm_compute; reflexivity|]. split; [vm_compute; reflexivity|]. eexists. split; [vm_compute; reflexivity|]. split; vm_compute; reflexivity. Qed.
Lemma six_zero : six fl 0.
Proof.
  destruct form_zero as (F1 & F2 & F3 & v & D & R1 & R2). unfold six, again6, again32, encodeFloatPrec.
  rewrite (sc_fmt32 _ SC 6 0) by (vm_compute; congruence). rewrite F1, F3. now rewrite (sc_parse32 _ SC _ _ D), R1.
Qed.
Lemma nine_zero : nine fl 0.
Proof.
  destruct form_zero as (F1 & F2 & F3 & v & D & R1 & R2). unfold nine, again64, encodeDouble.
  rewrite (sc_fmt64 _ SC 9 0) by (vm_compute; congruence). now rewrite F2, (sc_parse64 _ SC _ _ D), R2.
Qed.
(** Every type with a name has a tag for optionals of it, but optionals. *)
Lemma named_stored t s : assocN typeStrings t = Some s -> t <> TypeOptional ->
  type_named (stored_type t) /\ exists s', assocN typeStrings (stored_type t) = Some s'.
Proof.
  intros H Hn.
  assert (G : forallb (fun e => (fst e =? TypeOptional)%N || (existsb (fun c => (fst c =? stored_type (fst e))%N) canon_tags &&
    match assocN typeStrings (stored_type (fst e)) with Some _ => true | None => false end)) typeStrings = true) by (vm_compute; reflexivity).
  assert (Hin : In (t, s) typeStrings).
  { clear G Hn. revert H. generalize typeStrings as l. induction l as [|[k a] l IH]; [discriminate|]. cbn [assocN]. destruct (N.eqb_spec k t) as [->|]; intros E; [injection E as ->; now left|right; now apply IH]. }
  rewrite forallb_forall in G. specialize (G _ Hin). cbn [fst] in G. apply orb_prop in G as [G|G]; [apply N.eqb_eq in G; contradiction|].
  apply andb_prop in G as [G1 G2]. apply existsb_exists in G1 as ([k n] & Hk & E). apply N.eqb_eq in E. cbn [fst] in E. subst k. split; [now exists n|].
  destruct (assocN typeStrings (stored_type t)) as [s'|]; [now exists s'|discriminate].
Qed.
Lemma float_number f g : same_float f g -> f32 f -> number32 f -> f32 g /\ number32 g.
Proof. intros [<-|[_ [-> | ->]]] H1 H2; [now split|split; [reflexivity|left; discriminate]|split; [reflexivity|left; vm_compute; discriminate]]. Qed.
Lemma floats_number l l' : Forall2 same_float l l' -> Forall f32 l -> Forall number32 l -> length l' = length l /\ Forall f32 l' /\ Forall number32 l'.
Proof.
  induction 1 as [|f g l l' Hfg _ IH]; intros H1 H2; [repeat constructor|]. inversion H1; subst. inversion H2; subst.
  destruct (float_number f g Hfg) as [G1 G2]; [assumption..|]. destruct IH as (I1 & I2 & I3); [assumption..|]. cbn [length]. split; [now f_equal|]. split; now constructor.
Qed.
Notation kv := (kept (six fl) (nine fl)).
Definition good (v : rvalue) : Prop := wf_rvalue v /\ kv v /\ enclosed v = true.
Definition text_ok (v : rvalue) : Prop := match v with RBinaryString s => cr_leading s | _ => True end.
Lemma keeps_good v v' : SpecCodec.plain v -> wf_rvalue v -> kv v -> text_ok v -> keeps_stored v v' -> good v'.
Proof.
  intros Hp Hw Hk Ht H. assert (E : without_fields v = v).
  { destruct v; try reflexivity. destruct custom; [reflexivity|]. cbn in Hk. destruct Hk as (-> & -> & -> & -> & ->). reflexivity. }
  unfold keeps_stored in H. rewrite E in H. clear E. unfold good. destruct H as [s|s|s|s|p rot rot1 Hr|v _ Hn]; [now repeat split..| |].
  - cbn in Hk, Hw. destruct Hw as (W1 & W2 & W3). destruct (floats_number rot rot1 Hr W3 (proj2 Hk)) as (N1 & N2 & N3).
    split; [cbn; split; [exact W1|split; [congruence|exact N2]]|]. split; [|reflexivity]. split; [exact (proj1 Hk)|exact N3].
  - split; [exact Hw|]. split; [exact Hk|]. destruct v; try reflexivity. contradiction.
Qed.
Lemma carried_good phi psi v v' : (forall t o, v = ROptional t o -> t <> TypeOptional) -> wf_rvalue v -> kv v -> text_ok v -> carried phi v v' ->
  good v' /\ carried (fun p => psi (phi p)) v (moved psi v').
Proof.
  intros Hn Hw Hk Ht H. destruct H as [v v' Hp H|p|s|t|t v v' Hp H|t v Hp].
  - split; [exact (keeps_good v v' Hp Hw Hk Ht H)|]. pose proof (keeps_plain _ _ H Hp) as Hp'. assert (E : moved psi v' = v') by (destruct v'; try reflexivity; contradiction). rewrite E. now apply carried_plain.
  - split; [split; [exact I|split; [exact I|reflexivity]]|exact (carried_reference (fun p => psi (phi p)) p)].
  - split; [split; [exact Hw|split; [exact I|reflexivity]]|exact (carried_shared _ s)].
  - split; [|exact (carried_none _ t)]. cbn in Hw. destruct Hw as [s Hs]. destruct (named_stored t s Hs (Hn _ _ eq_refl)) as [G1 G2]. split; [exact G2|]. split; [now left|reflexivity].
  - split; [|now apply carried_some]. cbn in Hk. destruct v; try contradiction. cbn in Hw. destruct Hw as (-> & W1 & W2 & W3). 
    unfold keeps_stored in H. cbn [without_fields] in H. assert (G : good v') by (apply (keeps_good (RCFrame pos rot)); [exact I|cbn; tauto|exact Hk|exact I|exact H]).
    inversion H as [| | | |? ? rot' Hr|? _ _]; subst.
    all: destruct G as (G1 & G2 & _); split; [split; [reflexivity|exact G1]|]; split; [exact G2|reflexivity].
  - exfalso. cbn in Hk. destruct v; try contradiction.
Qed.
Lemma filled_good first fs psi w v' : (forall t o, w = ROptional t o -> t <> TypeOptional) -> wf_rvalue w -> kv w -> (forall s, w = RSharedString s -> len32 fs) -> filled first fs w v' ->
  good v' /\ filled (psi first) fs w (moved psi v').
Proof.
  intros Hn Hw Hk Hl H. pose proof zero_number as Z. pose proof six_zero as S0. pose proof nine_zero as D0. destruct H as [t o|p|s|p rot|w d Hp Hc Hd].
  - split; [|exact (filled_optional _ _ t o)]. assert (E : exists s, assocN typeStrings t = Some s).
    { destruct o as [v|]; [|exact Hw]. cbn in Hk. destruct v; try contradiction. cbn in Hw. destruct Hw as (-> & _). now exists "CFrame"%string. }
    destruct E as [s Hs]. destruct (named_stored t s Hs (Hn _ _ eq_refl)) as [G1 G2]. split; [exact G2|]. split; [now left|reflexivity].
  - split; [split; [exact I|split; [exact I|reflexivity]]|exact (filled_reference (psi first) fs p)].
  - split; [split; [exact (Hl s eq_refl)|split; [exact I|reflexivity]]|exact (filled_shared _ fs s)].
  - split; [|exact (filled_cframe _ _ p rot)]. split; [|split; [|reflexivity]].
    + cbn. split; [repeat split|]. split; [reflexivity|]. repeat (constructor; [reflexivity|]). constructor.
    + cbn. split; [repeat split; exact Z|]. repeat (constructor; [exact Z|]). constructor.
  - assert (Em : moved psi d = d).
    { destruct d; try reflexivity. apply default_type in Hd. destruct w; try contradiction; discriminate Hd. }
    rewrite Em. split; [|now apply filled_plain].
    destruct w; try contradiction; cbn in Hc; try (now destruct Hc); vm_compute in Hd; try discriminate Hd; apply Some_eq in Hd; subst d; unfold good; cbn;
      repeat split; try exact Z; try exact S0; try exact D0; try (constructor; fail); try (vm_compute; congruence); try (now left); left; split; [reflexivity|now left].
Qed.
End Values.
