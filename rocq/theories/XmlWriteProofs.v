(** XmlWriteProofs.v - WriteTo writes what SpecXmlWrite says. *)
From Verif Require Import Base XmlText XmlDoc SpecXmlText SpecXml XmlTextProofs XmlGrammar XmlGrammarTags XmlLayout SpecXmlWrite.
Local Notation string := String.string.

(** ** Numbers *)
Lemma digit10 b d : digit_of 10 b d -> (d < 10 /\ b2N b = 0x30 + d)%N.
Proof. intros [Hd [[? ?]|[? _]]]; lia. Qed.
Lemma digits_value ds : forall a n, numeral 10 a ds n -> exists v, (n = a * 10 ^ N.of_nat (length ds) + v /\ v < 10 ^ N.of_nat (length ds))%N.
Proof.
  induction ds as [|b ds IH]; intros a n H; inversion H; subst.
  - exists 0%N. cbn. lia.
  - match goal with H : digit_of _ _ _ |- _ => apply digit10 in H as [Hd _] end.
    destruct (IH _ _ H5) as (v & -> & Hv). exists (d * 10 ^ N.of_nat (length ds) + v)%N.
    cbn [length]. rewrite Nat2N.inj_succ, N.pow_succ_r'. nia.
Qed.
Lemma numeral_same ds : forall ds' a n, length ds = length ds' -> numeral 10 a ds n -> numeral 10 a ds' n -> ds = ds'.
Proof.
  induction ds as [|b ds IH]; intros [|b' ds'] a n Hl H H'; try discriminate Hl; [reflexivity|].
  inversion H; subst. inversion H'; subst. injection Hl as Hl.
  repeat match goal with H : digit_of _ _ _ |- _ => apply digit10 in H as [? ?] end.
  match goal with H1 : numeral 10 _ ds n, H2 : numeral 10 _ ds' n |- _ =>
    pose proof (digits_value _ _ _ H1) as (v & Ev & Hv); pose proof (digits_value _ _ _ H2) as (v' & Ev' & Hv');
    assert (d = d0) by (rewrite <- Hl in *; set (p := (10 ^ N.of_nat (length ds))%N) in *; nia) end.
  subst d0. f_equal; [apply b2N_inj; lia|]. eapply IH; eauto.
Qed.
Lemma decimal_unique n ds ds' : decimal n ds -> decimal n ds' -> ds = ds'.
Proof.
  intros (H1 & H2 & H3) (H1' & H2' & H3').
  assert (L : forall ds n, ds <> [] -> numeral 10 0 ds n -> (forall r, ds = x30 :: r -> r = []) ->
    (n < 10 ^ N.of_nat (length ds))%N /\ (length ds = 1 \/ (10 ^ N.of_nat (length ds - 1) <= n)%N)).
  { clear. intros [|b ds] n Hne H Hz; [congruence|]. split.
    - destruct (digits_value _ _ _ H) as (v & -> & Hv). lia.
    - inversion H; subst. match goal with H : digit_of _ _ _ |- _ => apply digit10 in H as [? E] end.
      destruct (N.eq_dec d 0) as [->|Hd].
      + left. rewrite (Hz ds); [reflexivity|]. f_equal. apply b2N_inj. exact E.
      + right. destruct (digits_value _ _ _ H5) as (v & -> & Hv). cbn [length]. rewrite Nat.sub_succ, Nat.sub_0_r. nia. }
  destruct (L _ _ H1 H2 H3) as [A B]. destruct (L _ _ H1' H2' H3') as [A' B'].
  apply (numeral_same ds ds' 0 n); auto.
  assert (P : forall a b, (10 ^ N.of_nat a < 10 ^ N.of_nat b)%N -> a < b) by (intros a b H; apply N.pow_lt_mono_r_iff in H; lia).
  destruct ds as [|x ds]; [congruence|]. destruct ds' as [|x' ds']; [congruence|]. cbn [length] in *.
  destruct (Nat.lt_trichotomy (length ds) (length ds')) as [H|[H|H]]; [|congruence|].
  - destruct B' as [B'|B']; [lia|]. rewrite Nat.sub_succ, Nat.sub_0_r in B'. assert (length ds' < S (length ds)) by (apply P; lia). lia.
  - destruct B as [B|B]; [lia|]. rewrite Nat.sub_succ, Nat.sub_0_r in B. assert (length ds < S (length ds')) by (apply P; lia). lia.
Qed.
Lemma decimal_format b : decimal (b2N b) (FormatUint (b2N b)).
Proof.
  destruct (ParseUint10_val (FormatUint (b2N b)) (b2N b)) as [H1 H2].
  { rewrite ParseUint_Format. pose proof (b2N_lt b). destruct (N.ltb_spec (b2N b) (2 ^ 32)); [reflexivity|lia]. }
  split; [exact H1|]. split; [exact H2|]. clear. intros r H. destruct b; vm_compute in H; inversion H; reflexivity.
Qed.
Lemma decimal_is b ds : decimal (b2N b) ds -> ds = FormatUint (b2N b).
Proof. intros H. exact (decimal_unique _ _ _ H (decimal_format b)). Qed.

(** ** Text *)
Lemma byte_text_is b e : byte_text b e -> e = escape_byte b.
Proof.
  intros H. destruct H as [n b Hin|b Hr Hn|b ds Hr Hn Hd].
  - repeat destruct Hin as [E|Hin]; try contradiction; injection E as <- <-; reflexivity.
  - assert (E : forall c, In c [x22; x27; x26; x3c; x3e] -> b <> c) by (intros c Hc ->; now apply Hn).
    unfold escape_byte. destruct b; try reflexivity; try (exfalso; eapply E; [|reflexivity]; cbn; tauto);
      (exfalso; destruct Hr as [Hr|Hr]; [vm_compute in Hr; intuition congruence|cbn in Hr; intuition discriminate]).
  - apply decimal_is in Hd as ->. unfold escape_byte.
    destruct b; try (exfalso; apply Hn; cbn; tauto); try reflexivity; exfalso; vm_compute in Hr; intuition congruence.
Qed.
Lemma byte_text_total b : byte_text b (escape_byte b).
Proof.
  assert (D : forall c n, In (n, c) named -> b = c -> byte_text b (x26 :: n ++ [x3b])) by (intros c n H ->; now constructor).
  destruct (in_dec Byte.byte_eq_dec b [x22; x27; x26; x3c; x3e]) as [Hs|Hs].
  { repeat destruct Hs as [<-|Hs]; try contradiction.
    - apply (D x22 (str "quot")); [cbn; tauto|reflexivity].
    - apply (D x27 (str "apos")); [cbn; tauto|reflexivity].
    - apply (D x26 (str "amp")); [cbn; tauto|reflexivity].
    - apply (D x3c (str "lt")); [cbn; tauto|reflexivity].
    - apply (D x3e (str "gt")); [cbn; tauto|reflexivity]. }
  destruct (((0x20 <=? b2N b) && (b2N b <=? 0x7e))%N || Byte.eqb b x0a || Byte.eqb b x0d) eqn:E.
  - assert (HL : (0x20 <= b2N b <= 0x7e)%N \/ In b [x0a; x0d]).
    { apply orb_prop in E as [E|E]; [apply orb_prop in E as [E|E]|].
      - left. apply andb_prop in E as [E1 E2]. apply N.leb_le in E1, E2. lia.
      - right. apply Byte.byte_dec_bl in E. cbn. auto.
      - right. apply Byte.byte_dec_bl in E. cbn. auto. }
    pose proof (Byte_literal b HL Hs) as H. rewrite <- (byte_text_is _ _ H). exact H.
  - apply orb_false_iff in E as [E E3]. apply orb_false_iff in E as [E1 E2].
    assert (HR : (b2N b < 0x20 \/ 0x7e < b2N b)%N).
    { apply andb_false_iff in E1 as [E1|E1]; apply N.leb_gt in E1; lia. }
    assert (HN : ~ In b [x0a; x0d]) by (intros [<-|[<-|[]]]; discriminate).
    pose proof (Byte_code b _ HR HN (decimal_format b)) as H. rewrite <- (byte_text_is _ _ H). exact H.
Qed.
Lemma plain_text_is s r : plain_text s r -> r = escapeString s false.
Proof. induction 1 as [|b e s r H _ IH]; [reflexivity|]. cbn [escapeString andb]. now rewrite <- (byte_text_is _ _ H), IH. Qed.
Lemma plain_text_total s : plain_text s (escapeString s false).
Proof. induction s as [|b s IH]; [constructor|]. cbn [escapeString andb]. constructor; [apply byte_text_total|exact IH]. Qed.
Lemma white_iff b : isSpace b = true <-> white b.
Proof. unfold white. destruct b; cbn; split; intros H; try discriminate H; try tauto; try (intuition discriminate); reflexivity. Qed.
Lemma lead_none s : match s with [] => True | b :: _ => ~ white b end -> escapeString s true = escapeString s false.
Proof. destruct s as [|b s]; [reflexivity|]. intros H. cbn [escapeString]. destruct (isSpace b) eqn:E; [now apply white_iff in E|reflexivity]. Qed.
Lemma element_text_is s r : element_text s r -> r = escapeString s true.
Proof.
  induction 1 as [s r H P|b ds s r Hw Hd _ IH].
  - rewrite lead_none by exact H. now apply plain_text_is.
  - cbn [escapeString]. rewrite (proj2 (white_iff b) Hw). cbn [andb]. unfold escape_numbered. rewrite (decimal_is _ _ Hd), IH.
    cbn [app]. now rewrite <- app_assoc.
Qed.
Lemma element_text_total s : element_text s (escapeString s true).
Proof.
  induction s as [|b s IH]; [constructor; [exact I|constructor]|]. destruct (isSpace b) eqn:E.
  - cbn [escapeString]. rewrite E. cbn [andb]. unfold escape_numbered. cbn [app]. rewrite <- app_assoc. cbn [app].
    constructor; [now apply white_iff|apply decimal_format|exact IH].
  - assert (H : ~ white b) by (intros H; apply white_iff in H; congruence).
    rewrite (lead_none (b :: s)) by exact H. constructor; [exact H|apply plain_text_total].
Qed.

(** ** Names and attributes *)
Lemma name_ok_iff k n : checkName k n = true <-> name_ok (stop_of k) n.
Proof.
  unfold checkName, name_ok. rewrite andb_true_iff, forallb_forall, Forall_forall. split; intros [H1 H2].
  - split; [destruct n; [discriminate H1|easy]|]. intros b Hb. apply wordy_iff. auto.
  - split; [destruct n; [congruence|reflexivity]|]. intros b Hb. apply wordy_iff. auto.
Qed.
Lemma name_not_iff k n : checkName k n = false <-> ~ name_ok (stop_of k) n.
Proof. rewrite <- name_ok_iff. destruct (checkName k n); intuition congruence. Qed.
Ltac lists := repeat first [rewrite <- app_assoc | rewrite app_nil_r | progress cbn [app]]; reflexivity.
Definition add (s : est) (r : bytes) (ws : list xerr) : est := Est (e_depth s) (e_warn s ++ ws) (e_out s ++ r).
Lemma add_add s r ws r' ws' : add (add s r ws) r' ws' = add s (r ++ r') (ws ++ ws').
Proof. unfold add. cbn. now rewrite !app_assoc. Qed.
Lemma put_add s r : put s r = add s r [].
Proof. unfold put, add. now rewrite app_nil_r. Qed.
Lemma warn_add s m : e_warning s m = add s [] [XMsg m].
Proof. unfold e_warning, add. now rewrite app_nil_r. Qed.
Lemma add_nil s : add s [] [] = s.
Proof. destruct s. unfold add. cbn. now rewrite !app_nil_r. Qed.
Lemma put_attrs_is l r ws : attributes_text l r ws -> forall s, put_attrs l s = add s r ws.
Proof.
  induction 1 as [|n v e l r ws Hn Hv _ IH|n v l r ws Hn _ IH]; intros s; cbn [put_attrs].
  - now rewrite add_nil.
  - rewrite (proj2 (name_ok_iff NameAttr n) Hn), IH, put_add, add_add. cbn [app]. rewrite <- (plain_text_is _ _ Hv). f_equal.
    cbn [app]. rewrite <- ?app_assoc. cbn [app]. rewrite <- ?app_assoc. reflexivity.
  - rewrite (proj2 (name_not_iff NameAttr n) Hn), IH, warn_add, add_add. reflexivity.
Qed.
Lemma put_attrs_total l : exists r ws, attributes_text l r ws.
Proof.
  induction l as [|[n v] l (r & ws & IH)]; [repeat econstructor|]. destruct (checkName NameAttr n) eqn:E.
  - apply name_ok_iff in E. eexists _, _. econstructor; [exact E|apply plain_text_total|exact IH].
  - apply name_not_iff in E. eexists _, _. apply At_ignored; [exact E|exact IH].
Qed.
Lemma end_total st en : exists fin ws, end_name st en fin ws.
Proof.
  destruct en as [|a en]; [repeat econstructor|]. destruct (checkName NameTag (a :: en)) eqn:E.
  - apply name_ok_iff in E. eexists _, _. apply End_own. exact E.
  - apply name_not_iff in E. eexists _, _. now apply End_bad.
Qed.
Lemma end_is st en fin ws s : end_name st en fin ws ->
  let bad := negb (checkName NameTag en) && nonempty en in
  let endName := if bad then st else en in
  (if bad then e_warning s "tag with malformed end name, used start name instead" else s) = add s [] ws /\
  (name_ok [] st -> (if nonempty endName then endName else st) = fin).
Proof.
  intros H. destruct H as [|n Hn|n Hne Hn]; cbv zeta.
  - cbn. now rewrite add_nil.
  - rewrite (proj2 (name_ok_iff NameTag n) Hn). cbn [negb andb]. rewrite add_nil. split; [reflexivity|]. intros _. destruct Hn as [Hn _]. now destruct n.
  - rewrite (proj2 (name_not_iff NameTag n) Hn). destruct n as [|a n]; [congruence|]. cbn [negb andb nonempty]. rewrite warn_add. split; [reflexivity|].
    intros [H _]. now destruct st.
Qed.

(** ** Tags *)
Scheme tag_text_mut := Minimality for tag_text Sort Prop
  with tags_text_mut := Minimality for tags_text Sort Prop.
Combined Scheme tag_text_both from tag_text_mut, tags_text_mut.
Section Tags.
Variable (prefix indent : bytes).
Local Notation compact := (XmlLayout.compact prefix indent).
Local Notation line_to := (XmlLayout.line_to prefix indent).
Lemma new_line_is d r : new_line prefix indent d r -> line_to (Z.of_nat d) = r.
Proof.
  intros H. unfold XmlLayout.line_to, XmlLayout.compact. destruct H as [d -> ->|d H]; [reflexivity|].
  rewrite Nat2Z.id. destruct prefix, indent; try reflexivity. now destruct H.
Qed.
Lemma new_line_total d : exists r, new_line prefix indent d r.
Proof.
  destruct prefix as [|a p] eqn:Ep; [destruct indent as [|a i] eqn:Ei|].
  - eexists. now apply Line_none.
  - eexists. apply Line_some. now right.
  - eexists. apply Line_some. now left.
Qed.
Lemma line_any d d' : compact = true -> line_to d = line_to d'.
Proof. unfold XmlLayout.line_to. now intros ->. Qed.

Section Kids.
Variable (noTags ni pretty : bool).
Fixpoint kids (l : list tag) (s : est) : est :=
  match l with
  | [] => s
  | sub :: l =>
      let '(wrote, s) := encodeTag prefix indent sub false ni s in
      kids l (if wrote && pretty then
              match l with
              | [] => if noTags then writeIndent prefix indent 0 true s else writeIndent prefix indent (-1) false s
              | _ => writeIndent prefix indent 0 false s
              end
            else s)
  end.
End Kids.
Definition deep_ok (loose : bool) (d : nat) (s : est) : Prop := compact = false -> loose = true -> e_depth s = Z.of_nat d.
Definition tag_P (d : nat) (loose : bool) (t : tag) (r : bytes) (ws : list xerr) : Prop :=
  forall s, deep_ok loose d s -> encodeTag prefix indent t false (negb loose) s = (true, add s r ws).
Definition tags_P (d : nat) (loose : bool) (sep fin : bytes) (ts : list tag) (r : bytes) (ws : list xerr) : Prop :=
  (ts = [] -> r = [] /\ ws = []) /\
  forall (noTags : bool) s D, ts <> [] -> deep_ok loose d s ->
    (forall s1, e_depth s1 = e_depth s -> (if loose then writeIndent prefix indent 0 false s1 else s1) = add s1 sep []) ->
    (forall s1, e_depth s1 = e_depth s ->
       (if loose then (if noTags then writeIndent prefix indent 0 true s1 else writeIndent prefix indent (-1) false s1) else s1) =
       Est D (e_warn s1) (e_out s1 ++ fin)) ->
    kids noTags (negb loose) loose ts s = Est D (e_warn s ++ ws) (e_out s ++ r).

Lemma encodeTag_eq st en at_ (em : bool) cd tx noind ts (noTags ni : bool) s : encodeTag prefix indent (Tag st en at_ em false cd tx noind ts) noTags ni s =
  if negb noTags && negb (checkName NameTag st) then (false, e_warning s "ignored tag with malformed start name")
  else
    let bad := negb noTags && negb (checkName NameTag en) && nonempty en in
    let endName := if bad then st else en in
    let s := if bad then e_warning s "tag with malformed end name, used start name instead" else s in
    let s := if noTags then s else put_attrs at_ (put s (x3c :: st)) in
    if negb noTags && em then (true, put s [x2f; x3e])
    else
      let s := if noTags then s else put s [x3e] in
      let s := match cd with None => s | Some c => put s (str "<![CDATA[" ++ c ++ str "]]>") end in
      let pretty := negb ni && negb noind in
      let s := if pretty && nonempty ts then
                 if noTags then writeIndent prefix indent 0 true s else writeIndent prefix indent 1 false s
               else s in
      let s := put s (escapeString tx true) in
      let s := kids noTags (ni || noind) pretty ts s in
      (true, if noTags then s else put s ([x3c; x2f] ++ (if nonempty endName then endName else st) ++ [x3e])).
Proof. reflexivity. Qed.
Lemma cdata_is cd rc s : cdata_text cd rc -> match cd with None => s | Some c => put s (str "<![CDATA[" ++ c ++ str "]]>") end = add s rc [].
Proof. intros [|c]; [now rewrite add_nil|now rewrite put_add]. Qed.
Lemma add_depth s r ws : e_depth (add s r ws) = e_depth s.
Proof. reflexivity. Qed.
(* the start tag *)
Lemma opening st en fin at_ ra ws ws' s : name_ok [] st -> end_name st en fin ws -> attributes_text at_ ra ws' ->
  let bad := negb (checkName NameTag en) && nonempty en in
  let s := if bad then e_warning s "tag with malformed end name, used start name instead" else s in
  put_attrs at_ (put s (x3c :: st)) = add s (x3c :: st ++ ra) ws'.
Proof. intros Hn He Ha bad s0. rewrite (put_attrs_is _ _ _ Ha), put_add, add_add. reflexivity. Qed.

Lemma tags_is : (forall d loose t r ws, tag_text prefix indent d loose t r ws -> tag_P d loose t r ws) /\
  (forall d loose sep fin ts r ws, tags_text prefix indent d loose sep fin ts r ws -> tags_P d loose sep fin ts r ws).
Proof.
  apply tag_text_both; unfold tag_P.
  - intros d loose st en at_ em cd tx ni ts r Ht s _. cbn [encodeTag]. rewrite <- (element_text_is _ _ Ht), put_add. reflexivity.
  - intros d loose st en fin at_ cd tx ni ts ra ws ws' Hn He Ha s _. rewrite encodeTag_eq. cbn [negb andb].
    rewrite (proj2 (name_ok_iff NameTag st) Hn). cbn [negb andb]. cbv zeta.
    destruct (end_is st en fin ws s He) as [E _]. cbv zeta in E. rewrite E, (put_attrs_is _ _ _ Ha), !put_add, !add_add. f_equal.
    f_equal; lists.
  - intros d loose st en fin at_ cd tx ni ts ra rc rt rs ws ws' ws'' Hl Hn He Ha Hc Ht _ IH s Hd. rewrite encodeTag_eq. cbn [negb andb].
    rewrite (proj2 (name_ok_iff NameTag st) Hn). cbn [negb andb]. cbv zeta.
    destruct (end_is st en fin ws s He) as [E E2]. cbv zeta in E, E2. rewrite E. match goal with |- context [[x3c; x2f] ++ ?e ++ [x3e]] => replace e with fin by (symmetry; exact (E2 Hn)) end. rewrite (put_attrs_is _ _ _ Ha), (cdata_is _ _ _ Hc), <- (element_text_is _ _ Ht).
    rewrite negb_involutive, Hl. cbn [andb].
    assert (En : negb loose || ni = true) by (destruct loose, ni; auto). rewrite En. clear En.
    rewrite !put_add, !add_add. f_equal.
    destruct ts as [|t ts].
    + destruct (proj1 IH eq_refl) as [-> ->]. cbn [kids]. rewrite add_add. f_equal.
      * cbn [app]. rewrite <- ?app_assoc. cbn [app]. rewrite <- ?app_assoc. reflexivity.
      * rewrite <- ?app_assoc, ?app_nil_r. reflexivity.
    + rewrite (proj2 IH false _ (e_depth s)); [|easy|now intros _ ?|intros; now rewrite add_nil|].
      * unfold add. cbn [e_depth e_warn e_out]. f_equal; lists.
      * intros s1 E1. rewrite app_nil_r. destruct s1. cbn in *. now rewrite E1.
  - intros d loose st en fin at_ cd tx ra rc rt ws ws' -> Hn He Ha Hc Ht s Hd. rewrite encodeTag_eq. cbn [negb andb].
    rewrite (proj2 (name_ok_iff NameTag st) Hn). cbn [negb andb]. cbv zeta.
    destruct (end_is st en fin ws s He) as [E E2]. cbv zeta in E, E2. rewrite E. match goal with |- context [[x3c; x2f] ++ ?e ++ [x3e]] => replace e with fin by (symmetry; exact (E2 Hn)) end. rewrite (put_attrs_is _ _ _ Ha), (cdata_is _ _ _ Hc), <- (element_text_is _ _ Ht).
    cbn [nonempty kids]. rewrite !put_add, !add_add. f_equal.
    f_equal; lists.
  - intros d loose st en fin at_ cd tx ts ra rc rt rs deep back ws ws' ws'' -> Hn He Ha Hc Ht Hne Hdeep Hback _ IH s Hd. rewrite encodeTag_eq. cbn [negb andb orb].
    rewrite (proj2 (name_ok_iff NameTag st) Hn). cbn [negb andb]. cbv zeta.
    destruct (end_is st en fin ws s He) as [E E2]. cbv zeta in E, E2. rewrite E. match goal with |- context [[x3c; x2f] ++ ?e ++ [x3e]] => replace e with fin by (symmetry; exact (E2 Hn)) end. rewrite (put_attrs_is _ _ _ Ha), (cdata_is _ _ _ Hc), <- (element_text_is _ _ Ht).
    destruct ts as [|t0 ts]; [congruence|]. cbn [nonempty].
    rewrite writeIndent_up, !put_add, !add_add. cbn [add e_depth e_warn e_out].
    set (D := XmlLayout.deeper prefix indent (e_depth s)).
    assert (HD : compact = false -> D = Z.of_nat (S d)).
    { intros Hcp. unfold D, XmlLayout.deeper. rewrite Hcp, (Hd Hcp eq_refl). lia. }
    assert (EL : line_to D = deep).
    { rewrite <- (new_line_is _ _ Hdeep). destruct compact eqn:Ec; [now apply line_any|now rewrite HD]. }
    rewrite EL. rewrite (proj2 IH false _ (e_depth s)).
    + unfold add. cbn [e_depth e_warn e_out]. f_equal. f_equal; lists.
    + easy.
    + intros Hcp _. exact (HD Hcp).
    + intros s1 E1. rewrite writeIndent_same, E1. cbn [add e_depth]. rewrite EL. unfold add. rewrite app_nil_r. destruct s1. cbn in *. now rewrite <- E1.
    + intros s1 E1. rewrite (writeIndent_down _ _ _ (e_depth s)) by exact E1. f_equal. f_equal.
      rewrite <- (new_line_is _ _ Hback). destruct compact eqn:Ec; [now apply line_any|now rewrite (Hd Ec eq_refl)].
  - intros d loose sep fin. split; [auto|]. intros ? ? ? H; congruence.
  - intros d loose sep fin t r ws _ IH. split; [discriminate|]. intros noTags s D _ Hd Hsep Hfin. cbn [kids]. rewrite (IH s Hd). cbn [andb].
    rewrite Hfin by reflexivity. unfold add. cbn [e_warn e_out]. now rewrite <- app_assoc.
  - intros d loose sep fin t r ws t' ts rs ws' _ IH _ IH'. split; [discriminate|]. intros noTags s D _ Hd Hsep Hfin.
    change (kids noTags (negb loose) loose (t :: t' :: ts) s) with
      (let '(wrote, s) := encodeTag prefix indent t false (negb loose) s in
       kids noTags (negb loose) loose (t' :: ts) (if wrote && loose then writeIndent prefix indent 0 false s else s)).
    rewrite (IH s Hd). cbn [andb]. rewrite Hsep by reflexivity. rewrite add_add, app_nil_r.
    rewrite (proj2 IH' noTags _ D); [|easy|exact Hd|exact Hsep|exact Hfin]. unfold add. cbn [e_warn e_out]. now rewrite <- !app_assoc.
Qed.

(** ** Every named document has a text *)
Lemma tag_text_total t : named_tag t -> forall d loose, exists r ws, tag_text prefix indent d loose t r ws.
Proof.
  induction t as [st en at_ em co cd tx ni ts IH] using tag_ind'. intros Hn d loose. cbn [named_tag] in Hn.
  destruct co; [eexists _, _; apply Tag_comment; apply element_text_total|].
  destruct Hn as [Hn|[Hn Hk]]; [discriminate|].
  destruct (end_total st en) as (fin & ws & He). destruct (put_attrs_total at_) as (ra & ws' & Ha).
  destruct em; [eexists _, _; eapply Tag_empty; eauto|]. destruct Hk as [Hk|Hk]; [discriminate|].
  assert (Hc : exists rc, cdata_text cd rc) by (destruct cd; eexists; constructor). destruct Hc as [rc Hc].
  assert (K : forall d' loose' sep fn, exists rs ws'', tags_text prefix indent d' loose' sep fn ts rs ws'').
  { intros d' loose' sep fn. clear - IH Hk. induction IH as [|t ts Ht HF IHl]; [eexists _, _; constructor|].
    destruct Hk as [H1 H2]. destruct (Ht H1 d' loose') as (r & w & E). destruct (IHl H2) as (rs & w' & E').
    destruct ts as [|t' ts]; eexists _, _; [eapply Tags_last|eapply Tags_more]; eauto. }
  destruct (loose && negb ni) eqn:El.
  - apply andb_prop in El as [-> El]. destruct ni; [discriminate El|].
    destruct ts as [|t0 ts]; [eexists _, _; eapply Tag_leaf; eauto using element_text_total|].
    destruct (new_line_total (S d)) as [deep Hdp]. destruct (new_line_total d) as [back Hb].
    destruct (K (S d) true deep back) as (rs & w & E). eexists _, _. eapply Tag_block; eauto using element_text_total. easy.
  - destruct (K d false [] []) as (rs & w & E). eexists _, _. eapply Tag_tight; eauto using element_text_total.
Qed.
Lemma tags_text_total ts : all_named ts -> forall d loose sep fin, exists r ws, tags_text prefix indent d loose sep fin ts r ws.
Proof.
  induction ts as [|t ts IH]; intros H d loose sep fin; [eexists _, _; constructor|]. destruct H as [H1 H2].
  destruct (tag_text_total t H1 d loose) as (r & w & E). destruct (IH H2 d loose sep fin) as (rs & w' & E').
  destruct ts as [|t' ts]; eexists _, _; [eapply Tags_last|eapply Tags_more]; eauto.
Qed.
Lemma root_text_is exclude t r ws : root_text prefix indent exclude t r ws ->
  encodeTag prefix indent t exclude (t_noindent t) (Est 0 [] prefix) = (true, Est 0 ws (prefix ++ r)).
Proof.
  destruct tags_is as [H1 H2]. intros H. destruct H as [t r ws H|st en at_ em cd tx ni ts r H|st en at_ em cd tx ni ts rc rt rs ws sep Hs Hs' Hc Ht Hts].
  - assert (E : encodeTag prefix indent t false (t_noindent t) (Est 0 [] prefix) = encodeTag prefix indent t false (negb true) (Est 0 [] prefix)).
    { destruct t as [st en at_ em co cd tx noind ts]. destruct noind; [|reflexivity]. destruct co; [reflexivity|]. rewrite !encodeTag_eq. reflexivity. }
    rewrite E. apply (H1 _ _ _ _ _ H). now intros _ _.
  - cbn [encodeTag]. rewrite <- (element_text_is _ _ H). reflexivity.
  - rewrite encodeTag_eq. cbn [negb andb t_noindent]. cbv zeta. rewrite (cdata_is _ _ _ Hc), <- (element_text_is _ _ Ht).
    rewrite andb_diag, orb_diag. 
    assert (W : forall s, writeIndent prefix indent 0 true s = s).
    { intros s. unfold writeIndent. destruct (_ && _); [reflexivity|]. now destruct s. }
    assert (W' : forall s, (if negb ni && nonempty ts then writeIndent prefix indent 0 true s else s) = s) by (intros s; rewrite W; now destruct (_ && _)).
    rewrite W', put_add, add_add. f_equal. destruct ts as [|t0 ts].
    + inversion Hts; subst. cbn [kids]. unfold add. cbn. now rewrite app_nil_r.
    + pose proof (proj2 (H2 _ _ _ _ _ _ _ Hts) true (add (Est 0 [] prefix) (rc ++ rt) []) 0%Z) as G. rewrite negb_involutive in G. etransitivity; [apply G|].
      * easy.
      * now intros _ _.
      * intros s1 E1. destruct ni; cbn [negb]; [rewrite (Hs eq_refl); now rewrite add_nil|]. rewrite writeIndent_same, E1. cbn [add e_depth].
        pose proof (new_line_is 0 sep (Hs' eq_refl)) as EL. cbn [Z.of_nat] in EL. rewrite EL. unfold add. rewrite app_nil_r. destruct s1. cbn in *. now rewrite E1.
      * intros s1 E1. rewrite app_nil_r. destruct s1. cbn in E1. subst. destruct ni; cbn [negb]; [reflexivity|apply W].
      * unfold add. cbn [e_warn e_out app]. f_equal. lists.
Qed.
End Tags.
