(** XmlReadValues.v - each case of getValue. *)
From Verif Require Import Base RbxlValues RbxValues Tree XmlText XmlDoc XmlCodec SpecXmlText SpecXmlRead XmlGrammar XmlReadProofs.
Local Notation string := String.string.

Fixpoint nodupb (l : list bytes) : bool := match l with [] => true | a :: l => negb (existsb (bytes_eqb a) l) && nodupb l end.
Lemma nodupb_ok l : nodupb l = true -> NoDup l.
Proof.
  induction l as [|a l IH]; intros H; [constructor|]. cbn [nodupb] in H. apply andb_true_iff in H as [H1 H2]. constructor; [|now apply IH].
  intros I. apply seen_iff in I. rewrite I in H1. discriminate H1.
Qed.
Ltac distinct := apply nodupb_ok; vm_compute; reflexivity.

(** What a component can be. *)
Definition fits (k : ckind) (x : option cval) : Prop :=
  match k, x with CF32, Some (VF _) => True | CF32, _ => x = None | CTag, Some (VT _) => True | CTag, _ => x = None
  | _, Some (VZ _) => True | _, _ => x = None end.
Lemma found_fits p32 ts n k x : found p32 ts n k x -> fits k x.
Proof. intros (u & _ & V). destruct V as [k b u c z E| | | | |]; try exact I; [destruct k; exact I || discriminate E|reflexivity]. Qed.
Lemma components_fits p32 want ts val n k : NoDup (map fst want) -> components p32 want ts val -> In (n, k) want -> fits k (val n).
Proof.
  intros ND C W. destruct C as [C|p u s k' x E W' A O Ev V].
  - eapply found_fits. now apply C.
  - destruct (bytes_eq_dec n (t_start u)) as [->|N].
    + rewrite Ev. pose proof (In_mfind _ _ _ ND W) as E1. pose proof (In_mfind _ _ _ ND W') as E2. rewrite E1 in E2. injection E2 as <-.
      destruct O as [k b u' c z B _ _]. destruct k; exact I || discriminate B.
    + destruct (V n k W N) as [F|[_ F]]; [eapply found_fits; exact F|]. rewrite F. now destruct k.
Qed.
Section V.
Variable (fl : floats).
Let p32 := fl_parse32 fl.
Lemma vf_at want t v n : NoDup (map fst want) -> getFrom fl want t = (true, v) -> In (str n, CF32) want -> float_at (mfind v) n (vf v n).
Proof.
  intros ND G W. pose proof (components_fits _ _ _ _ _ _ ND (getFrom_sound fl want ND t v G) W) as F. unfold float_at, vf.
  destruct (mfind v (str n)) as [[z|f|u]|]; cbn [fits] in F; [discriminate F|now left|discriminate F|now right].
Qed.
Lemma vz_at want t v n k : NoDup (map fst want) -> getFrom fl want t = (true, v) -> In (str n, k) want -> k <> CF32 -> k <> CTag -> int_at (mfind v) n (vz v n).
Proof.
  intros ND G W N1 N2. pose proof (components_fits _ _ _ _ _ _ ND (getFrom_sound fl want ND t v G) W) as F. unfold int_at, vz.
  destruct (mfind v (str n)) as [[z|f|u]|]; cbn [fits] in F; [now left|destruct k; congruence|destruct k; congruence|now right].
Qed.
Lemma at_vf (want : list (bytes * ckind)) v val n f : (forall n, In n (map fst want) -> mfind v n = val n) -> In (str n) (map fst want) -> float_at val n f -> vf v n = f.
Proof. intros M W F. unfold vf. rewrite (M _ W). destruct F as [->|[-> ->]]; reflexivity. Qed.
Lemma at_vz (want : list (bytes * ckind)) v val n z : (forall n, In n (map fst want) -> mfind v n = val n) -> In (str n) (map fst want) -> int_at val n z -> vz v n = z.
Proof. intros M W F. unfold vz. rewrite (M _ W). destruct F as [->|[-> ->]]; reflexivity. Qed.
Lemma at_vt (want : list (bytes * ckind)) v val n t : (forall n, In n (map fst want) -> mfind v n = val n) -> In (str n) (map fst want) -> tag_at val n t -> vt v n = Some t.
Proof. intros M W F. unfold vt. rewrite (M _ W). now rewrite F. Qed.
Lemma floats_in_iff ns fs t : NoDup (map str ns) ->
  floats_in p32 t ns fs <-> exists v, getFrom fl (wants CF32 ns) t = (true, v) /\ map (vf v) ns = fs.
Proof.
  intros ND'. assert (ND : NoDup (map fst (wants CF32 ns))) by (unfold wants; rewrite map_map; exact ND').
  assert (IN : forall n, In n ns -> In (str n, CF32) (wants CF32 ns)) by (intros n H; unfold wants; now apply (in_map (fun n => (str n, CF32)))).
  split.
  - intros (val & C & F). destruct (getFrom_complete fl (wants CF32 ns) ND t val C) as (v & G & M). exists v. split; [exact G|].
    assert (IN' : forall n, In n ns -> In (str n) (map fst (wants CF32 ns))) by (intros n H; apply (in_map fst _ _ (IN n H))).
    clear - F M IN'. revert M IN'. generalize (map fst (wants CF32 ns)). intros W M IN'. induction F as [|n f ns fs H F IH]; [reflexivity|]. cbn [map]. f_equal.
    + unfold vf. rewrite (M _ (IN' n (or_introl eq_refl))). destruct H as [->|[-> ->]]; reflexivity.
    + apply IH. intros m Hm. apply IN'. now right.
  - intros (v & G & <-). exists (mfind v). split; [exact (getFrom_sound fl _ ND t v G)|]. unfold floats_at.
    assert (H : forall l, incl l ns -> Forall2 (float_at (mfind v)) l (map (vf v) l)); [|apply H; apply incl_refl].
    induction l as [|n l IH]; intros I; constructor.
    + apply (vf_at _ t v n ND G). apply IN, I. now left.
    + apply IH. intros m Hm. apply I. now right.
Qed.
Lemma tags_iff ns t : NoDup (map str ns) ->
  (forall v, getFrom fl (wants CTag ns) t = (true, v) -> forall n, In n ns -> exists u, vt v n = Some u /\ first (str n) (t_tags t) u) /\
  (forall us, Forall2 (fun n u => first (str n) (t_tags t) u) ns us -> exists v, getFrom fl (wants CTag ns) t = (true, v) /\ map (vt v) ns = map Some us).
Proof.
  intros ND'. assert (ND : NoDup (map fst (wants CTag ns))) by (unfold wants; rewrite map_map; exact ND').
  assert (IN : forall n, In n ns -> In (str n, CTag) (wants CTag ns)) by (intros n H; unfold wants; now apply (in_map (fun n => (str n, CTag)))).
  assert (OUT : forall n k, In (n, k) (wants CTag ns) -> k = CTag /\ exists m, In m ns /\ n = str m).
  { intros n k H. apply in_map_iff in H as (m & E & H). injection E as <- <-. split; [reflexivity|]. now exists m. }
  split.
  - intros v G n H. pose proof (getFrom_sound fl _ ND t v G) as C. destruct C as [C|p u s k x E W A O Ev V].
    + destruct (C _ _ (IN n H)) as (u & F & V). exists u. split; [|exact F]. unfold vt. inversion V as [k b u' c z B| | | | |]; subst; [discriminate B|]. congruence.
    + destruct (OUT _ _ W) as [-> _]. inversion O as [k b u' c z B]; subst. discriminate B.
  - intros us F. destruct (getFrom_complete fl (wants CTag ns) ND t (mfind (combine (map str ns) (map VT us)))) as (v & G & M).
    + apply Comps_all. intros n k W. destruct (OUT _ _ W) as (-> & m & Hm & ->). 
      assert (L : forall ns us, Forall2 (fun n u => first (str n) (t_tags t) u) ns us -> NoDup (map str ns) -> In m ns ->
        exists u, first (str m) (t_tags t) u /\ mfind (combine (map str ns) (map VT us)) (str m) = Some (VT u)).
      { clear. intros ns us F. induction F as [|n u ns us H F IH]; intros ND Hm; [easy|]. cbn [map combine mfind]. inversion ND; subst.
        destruct (bytes_eqb (str n) (str m)) eqn:E.
        - apply bytes_eqb_eq in E. rewrite <- E. now exists u.
        - destruct Hm as [->|Hm]; [rewrite bytes_eqb_refl in E; discriminate E|]. now apply IH. }
      destruct (L ns us F ND' Hm) as (u & F' & E). exists u. split; [exact F'|]. rewrite E; constructor.
    + exists v. split; [exact G|].
      assert (L : forall ns' us', Forall2 (fun n u => first (str n) (t_tags t) u) ns' us' -> incl ns' ns -> map (vt v) ns' = map Some us'); [|apply (L _ _ F), incl_refl].
      pose proof (getFrom_sound fl _ ND t v G) as C.
      intros ns' us' F'. induction F' as [|n u ns' us' H F' IH]; intros IC; [reflexivity|]. cbn [map]. f_equal; [|apply IH; intros m Hm; apply IC; now right].
      assert (Hn : In n ns) by (apply IC; now left).
      destruct C as [C|p u' s k x E W A O Ev V].
      * destruct (C _ _ (IN n Hn)) as (u' & F'' & V). unfold vt. rewrite (first_unique _ _ _ _ H F''). inversion V as [k b u'' c z B| | | | |]; subst; [discriminate B|]. reflexivity.
      * destruct (OUT _ _ W) as [-> _]. inversion O as [k b u'' c z B]; subst. discriminate B.
Qed.
End V.

(** ** Parts *)
Lemma bits_iff z bs : bits_at z bs <-> bs = map (fun i => bit z (Z.of_nat i)) (seq 0 (length bs)).
Proof.
  unfold bits_at. replace (map (fun i => Z.odd (z / 2 ^ Z.of_nat i)) (seq 0 (length bs))) with (map (fun i => bit z (Z.of_nat i)) (seq 0 (length bs))); [reflexivity|].
  apply map_ext. intros i. unfold bit. rewrite Z.testbit_odd, Z.shiftr_div_pow2 by lia. reflexivity.
Qed.
Lemma rgb_iff n r g b : rgb n r g b <-> packed n 16 = r /\ packed n 8 = g /\ packed n 0 = b.
Proof.
  unfold rgb, packed. rewrite !N.shiftr_div_pow2. change (2 ^ 16)%N with 65536%N. change (2 ^ 8)%N with 256%N. change (2 ^ 0)%N with 1%N. change (2 ^ 24)%N with 16777216%N. rewrite N.div_1_r. split.
  - intros (k & -> & H1 & H2 & H3). split; [|split].
    + replace (k * 16777216 + r * 65536 + g * 256 + b)%N with ((k * 256 + r) * 65536 + (g * 256 + b))%N by lia.
      rewrite N.div_add_l by lia. rewrite (N.div_small (g * 256 + b)) by lia. rewrite N.add_0_r, N.add_comm, N.mod_add by lia. apply N.mod_small; lia.
    + replace (k * 16777216 + r * 65536 + g * 256 + b)%N with (((k * 256 + r) * 256 + g) * 256 + b)%N by lia.
      rewrite N.div_add_l by lia. rewrite (N.div_small b) by lia. rewrite N.add_0_r, N.add_comm, N.mod_add by lia. apply N.mod_small; lia.
    + replace (k * 16777216 + r * 65536 + g * 256 + b)%N with (b + ((k * 256 + r) * 256 + g) * 256)%N by lia.
      rewrite N.mod_add by lia. apply N.mod_small; lia.
  - intros (<- & <- & <-). exists (n / 16777216)%N. split; [|split; [|split]; apply N.mod_lt; lia].
    pose proof (N.div_mod n 256) as E1. pose proof (N.div_mod (n / 256) 256) as E2. pose proof (N.div_mod (n / 65536) 256) as E3.
    rewrite N.div_div in E2 by lia. change (256 * 256)%N with 65536%N in E2. rewrite N.div_div in E3 by lia. change (65536 * 256)%N with 16777216%N in E3. lia.
Qed.
Lemma hex_iff s r : hex_text s r <-> hex_decode s = Some r.
Proof.
  split.
  - intros H. induction H as [|a b x y s r Ha Hb _ IH]; [reflexivity|]. cbn [hex_decode]. apply (digit_iff true) in Ha as [-> _], Hb as [-> _]. now rewrite IH.
  - revert r. enough (H : forall n s r, length s <= n -> hex_decode s = Some r -> hex_text s r) by (intros r; now apply (H (length s))).
    induction n as [|n IH]; intros [|a [|b l]] r L E; cbn in L; try lia; try discriminate E; try (injection E as <-; constructor).
    cbn [hex_decode] in E. destruct (digit a) as [x|] eqn:Ea; [|discriminate E]. destruct (digit b) as [y|] eqn:Eb; [|discriminate E].
    destruct (hex_decode l) as [q|] eqn:Eq; [|discriminate E]. injection E as <-.
    assert (D : forall c d, digit c = Some d -> digit_of 16 c d).
    { intros c d E. apply (digit_iff true). split; [exact E|]. cbn [base_of]. unfold digit in E.
      repeat match type of E with (if ?b then _ else _) = _ => destruct b eqn:? end; try discriminate E; injection E as <-; lia. }
    apply Hex_byte; auto. apply IH; [lia|exact Eq].
Qed.
Lemma hex_text_length s r : hex_text s r -> length s = 2 * length r.
Proof. intros H. induction H; cbn [length]; lia. Qed.
Lemma truth_iff d t b : truth t b -> get_bool d t = Some b.
Proof.
  intros [u c Hc I|u c Hc I]; apply contents_iff in Hc; unfold get_bool; rewrite Hc; cbn [In] in I.
  - destruct I as [<-|[<-|[<-|[]]]]; reflexivity.
  - destruct I as [<-|[<-|[<-|[]]]]; reflexivity.
Qed.
Lemma truth_read t b : get_bool true t = Some b -> truth t b.
Proof.
  unfold get_bool. destruct (existsb _ [str "false"; _; _]) eqn:E1; [|destruct (existsb _ [str "true"; _; _]) eqn:E2].
  - intros H. injection H as <-. apply (Truth_no t (getContent t)); [now apply contents_iff|]. now apply seen_iff.
  - intros H. injection H as <-. apply (Truth_yes t (getContent t)); [now apply contents_iff|]. now apply seen_iff.
  - discriminate.
Qed.
Lemma content_iff d t c : content_of t c -> exists w, get_content d t = (Some c, w).
Proof.
  intros [u s r Hc E I|u s r c' Hc E H Hr]; apply contents_iff in Hc; unfold get_content; rewrite Hc, E; cbn [nonempty].
  - cbn [In] in I. destruct I as [<-|[<-|[<-|[]]]]; eexists; reflexivity.
  - rewrite H. apply contents_iff in Hr. rewrite Hr. eexists. reflexivity.
Qed.
Lemma content_read t c w : get_content true t = (Some c, w) -> content_of t c.
Proof.
  unfold get_content. destruct (getContent t) eqn:Ec; cbn [nonempty]; [|discriminate]. destruct (t_tags t) as [|u s] eqn:Et; [discriminate|].
  assert (H0 : contents t []) by now apply contents_iff.
  destruct (bytes_eqb (t_start u) (str "binary")) eqn:E1; [|destruct (bytes_eqb (t_start u) (str "hash")) eqn:E2; [|destruct (bytes_eqb (t_start u) (str "null")) eqn:E3; [|destruct (bytes_eqb (t_start u) (str "url")) eqn:E4]]].
  - intros H. injection H as <- _. apply bytes_eqb_eq in E1. apply (Con_none t u s H0 Et). rewrite E1. right. right. now left.
  - intros H. injection H as <- _. apply bytes_eqb_eq in E2. apply (Con_none t u s H0 Et). rewrite E2. right. now left.
  - intros H. injection H as <- _. apply bytes_eqb_eq in E3. apply (Con_none t u s H0 Et). rewrite E3. now left.
  - intros H. injection H as <- _. apply bytes_eqb_eq in E4. apply (Con_url t u s _ H0 Et E4). now apply contents_iff.
  - discriminate.
Qed.

(** ** Floats separated by white space *)
Lemma scan_word_read b : forall acc w r, scan_word acc b = Some (w, r) ->
  exists w' c r', w = acc ++ w' /\ b = w' ++ r /\ r = c :: r' /\ white c /\ Forall (fun b => ~ white b) w'.
Proof.
  induction b as [|c b IH]; intros acc w r H; [discriminate H|]. cbn [scan_word] in H. destruct (isSpace c) eqn:S.
  - injection H as <- <-. exists [], c, b. rewrite app_nil_r. repeat split; [now apply white_iff|constructor].
  - destruct (IH _ _ _ H) as (w' & c' & r' & -> & -> & -> & Hc & F). exists (c :: w'), c', r'. rewrite <- app_assoc. repeat split; auto.
    constructor; [|exact F]. intros Hw. apply white_iff in Hw. congruence.
Qed.
Lemma scan_word_app w c r : forall acc, Forall (fun b => ~ white b) w -> white c -> scan_word acc (w ++ c :: r) = Some (acc ++ w, c :: r).
Proof.
  induction w as [|b w IH]; intros acc F Hc; cbn [app scan_word].
  - apply white_iff in Hc. rewrite Hc. now rewrite app_nil_r.
  - inversion F; subst. destruct (isSpace b) eqn:S; [apply white_iff in S; contradiction|]. rewrite IH by auto. now rewrite <- app_assoc.
Qed.
Lemma skip_space_read b : exists sp, b = sp ++ skip_space b /\ Forall white sp /\ match skip_space b with [] => True | c :: _ => ~ white c end.
Proof.
  induction b as [|c b (sp & E & F & G)]; [exists []; now repeat split|]. cbn [skip_space]. destruct (isSpace c) eqn:S.
  - exists (c :: sp). split; [cbn [app]; now rewrite <- E|]. split; [|exact G]. constructor; [now apply white_iff|exact F].
  - exists []. repeat split; [constructor|]. intros H. apply white_iff in H. congruence.
Qed.
Lemma skip_space_app sp c : Forall white sp -> match c with [] => True | b :: _ => ~ white b end -> skip_space (sp ++ c) = c.
Proof.
  induction sp as [|s sp IH]; intros F H; cbn [app skip_space].
  - destruct c as [|b c]; [reflexivity|]. cbn [skip_space]. destruct (isSpace b) eqn:S; [apply white_iff in S; contradiction|reflexivity].
  - inversion F; subst. apply white_iff in H2. rewrite H2. now apply IH.
Qed.
Section W.
Variable fl : floats.
Let p32 := fl_parse32 fl.
Lemma scanFloats_iff fs : forall c rest, float_words p32 c fs rest <-> scanFloats fl (length fs) c = Some (fs, rest).
Proof.
  induction fs as [|f fs IH]; intros c rest; cbn [length scanFloats].
  - split; [intros H; now inversion H|]. intros H. injection H as ->. constructor.
  - split.
    + intros H. inversion H as [|w sp c' f' fs' rest' Hw Hne Hsp Hc Hf Hr]; subst. destruct sp as [|s sp]; [congruence|].
      unfold scanFloat. cbn [app]. inversion Hsp; subst. rewrite (scan_word_app w s (sp ++ c') []) by auto. cbn [app]. unfold p32 in Hf. rewrite Hf.
      change (s :: sp ++ c') with ((s :: sp) ++ c'). rewrite skip_space_app by auto. apply IH in Hr. now rewrite Hr.
    + unfold scanFloat. destruct (scan_word [] c) as [[w r]|] eqn:E; [|discriminate]. destruct (fl_parse32 fl w) as [g|] eqn:P; [|discriminate].
      destruct (scanFloats fl (length fs) (skip_space r)) as [[gs b]|] eqn:Q; [|discriminate]. intros H. injection H as -> -> ->.
      destruct (scan_word_read _ _ _ _ E) as (w' & s & r' & -> & -> & -> & Hs & Hw). cbn [app] in *.
      destruct (skip_space_read (s :: r')) as (sp & E1 & E2 & E3). rewrite E1. apply Words_cons; auto.
      * intros ->. cbn [app] in E1. cbn [skip_space] in E1. apply white_iff in Hs. rewrite Hs in E1.
        destruct (skip_space_read r') as (sp & F1 & _). apply (f_equal (@length byte)) in E1, F1. rewrite app_length in F1. cbn [length] in E1. lia.
      * apply IH. exact Q.
Qed.
Lemma float_words_length c fs rest : float_words p32 c fs rest -> length c = length rest + (length c - length rest) /\ length rest + length fs <= length c.
Proof.
  intros H. induction H as [|w sp c f fs rest Hw Hne Hsp Hc Hf Hr [IH1 IH]]; [cbn; lia|].
  destruct sp; [congruence|]. rewrite !app_length. cbn [length]. lia.
Qed.
Lemma float_words_app c fs gs rest : float_words p32 c (fs ++ gs) rest <-> exists m, float_words p32 c fs m /\ float_words p32 m gs rest.
Proof.
  revert c. induction fs as [|f fs IH]; intros c; cbn [app].
  - split; [intros H; exists c; split; [constructor|exact H]|]. intros (m & H & G). now inversion H; subst.
  - split.
    + intros H. inversion H as [|w sp c' f' fs' rest' Hw Hne Hsp Hc Hf Hr]; subst. apply IH in Hr as (m & H1 & H2). exists m. split; [|exact H2]. now apply Words_cons.
    + intros (m & H & G). inversion H as [|w sp c' f' fs' rest' Hw Hne Hsp Hc Hf Hr]; subst. apply Words_cons; auto. apply IH. now exists m.
Qed.
Lemma scanGroups_iff n gs : n <> 0 -> forall fuel c, length c <= fuel ->
  (Forall (fun g => length g = n) gs /\ float_words p32 c (concat gs) []) <-> scanGroups fuel fl n c = Some gs.
Proof.
  intros Hn. induction gs as [|g gs IH]; intros fuel c L.
  - split.
    + intros [_ H]. cbn [concat] in H. inversion H; subst. now destruct fuel.
    + intros H. destruct c as [|b c]; [split; constructor|]. destruct fuel as [|fuel]; [discriminate H|]. cbn [scanGroups] in H.
      destruct (scanFloats _ _ _) as [[fs r]|]; [|discriminate H]. destruct (scanGroups fuel fl n r); discriminate H.
  - split.
    + intros [F H]. inversion F; subst. cbn [concat] in H. apply float_words_app in H as (m & H1 & H2).
      pose proof (float_words_length _ _ _ H1) as [_ L1]. destruct c as [|b c]; [cbn in L1; lia|]. destruct fuel as [|fuel]; [cbn in L; lia|].
      cbn [scanGroups]. apply scanFloats_iff in H1. rewrite H1. cbn [length] in L, L1.
      rewrite (proj1 (IH fuel m ltac:(lia))); [reflexivity|]. now split.
    + intros H. destruct c as [|b c]; [destruct fuel; discriminate H|]. destruct fuel as [|fuel]; [discriminate H|]. cbn [scanGroups] in H.
      destruct (scanFloats fl n (b :: c)) as [[fs r]|] eqn:E; [|discriminate H]. destruct (scanGroups fuel fl n r) as [gs'|] eqn:E'; [|discriminate H]. injection H as -> ->.
      assert (Lg : length g = n).
      { clear - E. revert E. generalize (b :: c). revert g r. induction n as [|n IH]; intros g r l E; cbn [scanFloats] in E; [now injection E as <- _|].
        destruct (scanFloat fl l) as [[f l']|]; [|discriminate E]. destruct (scanFloats fl n l') as [[fs l'']|] eqn:E'; [|discriminate E]. injection E as <- _. cbn [length]. f_equal. exact (IH _ _ _ E'). }
      rewrite <- Lg in E. apply scanFloats_iff in E. pose proof (float_words_length _ _ _ E) as [_ L1]. cbn [length] in L, L1.
      apply IH in E'; [|lia]. destruct E' as [F G]. split; [constructor; [exact Lg|exact F]|]. cbn [concat]. apply float_words_app. now exists r.
Qed.
End W.
