(** XmlLayout.v - what the XML writer produces for plain tags, and that the
    parser reads it back. *)
From Verif Require Import Base XmlText XmlDoc XmlTotal SpecXml.
Local Notation string := String.string.

(** ** Escaped text *)
Fixpoint nlf (cr : bool) (s : bytes) : bytes :=
  match s with
  | [] => []
  | c :: r => if Byte.eqb c x0d then x0a :: nlf true r
              else if cr && Byte.eqb c x0a then nlf false r else c :: nlf false r
  end.
Lemma nlf_nl s : nlf false s = nl s /\ nlf true s = match s with c' :: r' => if Byte.eqb c' x0a then nl r' else nl s | [] => [] end.
Proof.
  induction s as [|c s [IH1 IH2]]; [split; reflexivity|]. cbn [nlf nl].
  destruct (Byte.eqb c x0d) eqn:E.
  - apply Byte.byte_dec_bl in E as ->. rewrite IH2. split; reflexivity.
  - cbn [andb]. rewrite IH1. split; [reflexivity|]. now destruct (Byte.eqb c x0a).
Qed.
Definition esc_body (b : byte) : bytes := tl (escape_numbered b).
Lemma entity_numbered b buf rest l c :
  read_entity buf (Dst (tl (escape_numbered b) ++ rest) None l c) = OK (Some (buf ++ [b]), Dst rest None l c).
Proof. destruct b; reflexivity. Qed.
(** Bytes that are written as they are. *)
Definition raw_byte (b : byte) : bool := match escape_byte b with [c] => Byte.eqb b c | _ => false end.
Lemma escape_cases b :
  (escape_byte b = [b] /\ Byte.eqb b x22 = false /\ Byte.eqb b x26 = false /\ Byte.eqb b x3c = false /\ Byte.eqb b x3e = false) \/
  (exists e, escape_byte b = x26 :: e /\ Byte.eqb b x0d = false /\ Byte.eqb b x0a = false /\
     forall buf rest l c, read_entity buf (Dst (e ++ rest) None l c) = OK (Some (buf ++ [b]), Dst rest None l c)).
Proof.
  destruct b; try (left; now repeat split); right; eexists; (split; [reflexivity|]); (split; [reflexivity|]); (split; [reflexivity|]);
    intros; first [reflexivity|apply entity_numbered].
Qed.

(** The end of a text: a quote is read, a tag is not. *)
Definition ends (q : option byte) (rest rest' : bytes) : Prop :=
  (q = None /\ exists r, rest = x3c :: r /\ rest' = rest) \/ (q = Some x22 /\ rest = x22 :: rest').
Lemma unget_bump b r l c : exists l', ungetc b (Dst r None (bump b l) c) = Dst (b :: r) None l' c.
Proof. eexists. reflexivity. Qed.
Lemma text_tail q rest rest' : ends q rest rest' -> forall fuel b0 b1 buf l c, length rest < fuel ->
  exists l', text_loop fuel q false b0 b1 buf (Dst rest None l c) = OK (Some buf, Dst rest' None l' c).
Proof.
  intros He [|fuel] b0 b1 buf l c Hf; [lia|].
  destruct He as [(-> & r & -> & ->)|[-> ->]]; cbn [text_loop getc d_in d_err d_line d_ctx].
  - change (Byte.eqb x3c x3e) with false. rewrite !andb_false_r. eexists. reflexivity.
  - change (Byte.eqb x22 x3e) with false. rewrite !andb_false_r. eexists. reflexivity.
Qed.
Lemma text_escaped q rest rest' : ends q rest rest' -> forall s fuel b0 b1 buf l c,
  length (escapeString s false ++ rest) < fuel ->
  exists l', text_loop fuel q false b0 b1 buf (Dst (escapeString s false ++ rest) None l c) =
    OK (Some (buf ++ nlf (Byte.eqb b1 x0d) s), Dst rest' None l' c).
Proof.
  intros He. induction s as [|b s IH]; intros fuel b0 b1 buf l c Hf.
  { cbn [escapeString app nlf] in *. rewrite app_nil_r. now apply (text_tail q rest rest'). }
  cbn [escapeString andb] in *. rewrite <- app_assoc in *.
  destruct fuel as [|fuel]; [lia|]. cbn [nlf].
  destruct (escape_cases b) as [(Ee & E22 & E26 & E3c & E3e)|(e & Ee & E0d & E0a & Hr)].
  - rewrite Ee in *. cbn [app length] in *. cbn [text_loop getc d_in d_err d_line d_ctx]. rewrite E3e, E3c, E26.
    rewrite !andb_false_r. cbn [andb].
    replace (match q with Some q0 => Byte.eqb b q0 | None => false end) with false
      by (destruct He as [(-> & _)|(-> & _)]; [reflexivity|now rewrite E22]).
    destruct (IH fuel b1 b (if Byte.eqb b x0d then buf ++ [x0a] else if Byte.eqb b1 x0d && Byte.eqb b x0a then buf else buf ++ [b])
                (bump b l) c) as [l' El]; [lia|].
    exists l'. etransitivity; [exact El|]. destruct (Byte.eqb b x0d); [now rewrite <- app_assoc|].
    destruct (Byte.eqb b1 x0d && Byte.eqb b x0a); [reflexivity|now rewrite <- app_assoc].
  - rewrite Ee in *. cbn [app length] in *. cbn [text_loop getc d_in d_err d_line d_ctx].
    replace (Byte.eqb x26 x3e) with false by reflexivity. replace (Byte.eqb x26 x3c) with false by reflexivity.
    replace (Byte.eqb x26 x26) with true by reflexivity. rewrite !andb_false_r. cbn [andb negb].
    replace (match q with Some q0 => Byte.eqb x26 q0 | None => false end) with false
      by (destruct He as [(-> & _)|(-> & _)]; reflexivity).
    change (bump x26 l) with l. rewrite Hr. cbn [obind].
    destruct (IH fuel x00 x00 (buf ++ [b]) l c) as [l' El]; [rewrite !app_length in *; lia|].
    exists l'. rewrite El. rewrite E0d, E0a, andb_false_r, <- app_assoc. reflexivity.
Qed.
Lemma text_escaped_lead q rest rest' : ends q rest rest' -> forall s fuel b0 b1 buf l c,
  Byte.eqb b1 x0d = false -> length (escapeString s true ++ rest) < fuel ->
  exists l', text_loop fuel q false b0 b1 buf (Dst (escapeString s true ++ rest) None l c) =
    OK (Some (buf ++ nl_text s), Dst rest' None l' c).
Proof.
  intros He. induction s as [|b s IH]; intros fuel b0 b1 buf l c Hb Hf.
  { cbn [escapeString app nl_text] in *. rewrite app_nil_r. now apply (text_tail q rest rest'). }
  cbn [escapeString andb nl_text] in *. destruct (isSpace b) eqn:Es.
  - rewrite <- app_assoc in *. destruct fuel as [|fuel]; [lia|].
    change (escape_numbered b) with (x26 :: tl (escape_numbered b)) in *. cbn [app length] in *. cbn [text_loop getc d_in d_err d_line d_ctx].
    replace (Byte.eqb x26 x3e) with false by reflexivity. replace (Byte.eqb x26 x3c) with false by reflexivity.
    replace (Byte.eqb x26 x26) with true by reflexivity. rewrite !andb_false_r. cbn [andb negb].
    replace (match q with Some q0 => Byte.eqb x26 q0 | None => false end) with false
      by (destruct He as [(-> & _)|(-> & _)]; reflexivity).
    change (bump x26 l) with l. rewrite entity_numbered. cbn [obind].
    destruct (IH fuel x00 x00 (buf ++ [b]) l c) as [l' El]; [reflexivity|rewrite !app_length in *; lia|].
    exists l'. rewrite El. now rewrite <- app_assoc.
  - destruct (text_escaped q rest rest' He (b :: s) fuel b0 b1 buf l c Hf) as [l' El].
    exists l'. cbn [escapeString andb] in El. rewrite El, Hb. now rewrite (proj1 (nlf_nl (b :: s))).
Qed.
Lemma text_attr v rest l c :
  exists l', text (Some x22) false (Dst (escapeString v false ++ x22 :: rest) None l c) = OK (Some (nl v), Dst rest None l' c).
Proof.
  unfold text. destruct (text_escaped (Some x22) (x22 :: rest) rest (or_intror (conj eq_refl eq_refl)) v
    (fuel_of (Dst (escapeString v false ++ x22 :: rest) None l c)) x00 x00 [] l c) as [l' El]; [unfold fuel_of; cbn [d_in]; lia|].
  exists l'. rewrite El. cbn [app]. change (Byte.eqb x00 x0d) with false. now rewrite (proj1 (nlf_nl v)).
Qed.
Lemma text_body tx rest l c :
  exists l', text None false (Dst (escapeString tx true ++ x3c :: rest) None l c) = OK (Some (nl_text tx), Dst (x3c :: rest) None l' c).
Proof.
  unfold text. destruct (text_escaped_lead None (x3c :: rest) (x3c :: rest)
    (or_introl (conj eq_refl (ex_intro _ rest (conj eq_refl eq_refl)))) tx
    (fuel_of (Dst (escapeString tx true ++ x3c :: rest) None l c)) x00 x00 [] l c eq_refl) as [l' El]; [unfold fuel_of; cbn [d_in]; lia|].
  exists l'. now rewrite El.
Qed.

(** ** White space *)
Lemma space_loop_blank w b rest : forallb isSpace w = true -> isSpace b = false -> forall fuel l c,
  length (w ++ b :: rest) < fuel ->
  exists l', space_loop fuel (Dst (w ++ b :: rest) None l c) = OK (tt, Dst (b :: rest) None l' c).
Proof.
  intros Hw Hb. induction w as [|a w IH]; intros [|fuel] l c Hf; try lia; cbn [app] in *.
  - cbn [space_loop getc d_in d_err d_line d_ctx]. rewrite Hb. eexists. reflexivity.
  - cbn in Hw. apply andb_prop in Hw as [Ha Hw]. cbn [space_loop getc d_in d_err d_line d_ctx]. rewrite Ha.
    apply IH; [exact Hw|cbn in Hf; lia].
Qed.
Lemma space_blank w b rest l c : forallb isSpace w = true -> isSpace b = false ->
  exists l', space (Dst (w ++ b :: rest) None l c) = OK (tt, Dst (b :: rest) None l' c).
Proof. intros Hw Hb. apply space_loop_blank; [exact Hw|exact Hb|unfold fuel_of; cbn [d_in]; lia]. Qed.
Lemma readSpace_loop_blank w b rest : forallb isSpace w = true -> isSpace b = false -> forall fuel buf l c,
  length (w ++ b :: rest) < fuel ->
  exists l', readSpace_loop fuel buf (Dst (w ++ b :: rest) None l c) = OK (buf ++ w, Dst (b :: rest) None l' c).
Proof.
  intros Hw Hb. induction w as [|a w IH]; intros [|fuel] buf l c Hf; try lia; cbn [app] in *.
  - cbn [readSpace_loop getc d_in d_err d_line d_ctx]. rewrite Hb, app_nil_r. eexists. reflexivity.
  - cbn in Hw. apply andb_prop in Hw as [Ha Hw]. cbn [readSpace_loop getc d_in d_err d_line d_ctx]. rewrite Ha.
    destruct (IH Hw fuel (buf ++ [a]) (bump a l) c) as [l' El]; [cbn in Hf; lia|]. exists l'. rewrite El. now rewrite <- app_assoc.
Qed.
Lemma readSpace_blank w b rest l c : forallb isSpace w = true -> isSpace b = false ->
  exists l', readSpace (Dst (w ++ b :: rest) None l c) = OK (w, Dst (b :: rest) None l' c).
Proof. intros Hw Hb. apply (readSpace_loop_blank w b rest Hw Hb _ []). unfold fuel_of; cbn [d_in]; lia. Qed.

(** ** Names *)
Lemma name_char_ok k b : name_char b = true -> isNameByte k b = true /\ isSpace b = false /\ (forall l, bump b l = l) /\
  Byte.eqb b x2f = false /\ Byte.eqb b x21 = false /\ Byte.eqb b x3e = false /\ Byte.eqb b x3c = false.
Proof. destruct b; intros H; try discriminate H; destruct k; now repeat split. Qed.
Lemma readName_loop_good k n b rest : forallb name_char n = true -> isNameByte k b = false -> forall fuel buf l c,
  length (n ++ b :: rest) < fuel ->
  exists l', readName_loop fuel k buf (Dst (n ++ b :: rest) None l c) = OK (true, buf ++ n, Dst (b :: rest) None l' c).
Proof.
  intros Hn Hb. induction n as [|a n IH]; intros [|fuel] buf l c Hf; try lia; cbn [app] in *.
  - cbn [readName_loop mustgetc getc d_in d_err d_line d_ctx]. rewrite Hb, app_nil_r. eexists. reflexivity.
  - cbn in Hn. apply andb_prop in Hn as [Ha Hn]. destruct (name_char_ok k a Ha) as [Hk _].
    unfold readName_loop at 1. fold readName_loop. cbn [mustgetc getc d_in d_err d_line d_ctx]. rewrite Hk.
    destruct (IH Hn fuel (buf ++ [a]) (bump a l) c) as [l' El]; [cbn in Hf; lia|]. exists l'. rewrite El. now rewrite <- app_assoc.
Qed.
Lemma name_good k n b rest l c : good_name n = true -> isNameByte k b = false ->
  exists l', name k (Dst (n ++ b :: rest) None l c) = OK (Some n, Dst (b :: rest) None l' c).
Proof.
  intros Hg Hb. destruct n as [|a n]; [discriminate Hg|]. cbn in Hg. apply andb_prop in Hg as [Ha Hn].
  destruct (name_char_ok k a Ha) as [Hk _].
  unfold name, readName. cbn [app mustgetc getc d_in d_err d_line d_ctx]. rewrite Hk. cbn [app].
  destruct (readName_loop_good k n b rest Hn Hb (fuel_of (Dst (n ++ b :: rest) None (bump a l) c)) [a] (bump a l) c) as [l' El];
    [unfold fuel_of; cbn [d_in]; lia|]. exists l'. rewrite El. reflexivity.
Qed.

(** ** Attributes *)
Definition attr_out (a : bytes * bytes) : bytes := [x20] ++ fst a ++ [x3d; x22] ++ escapeString (snd a) false ++ [x22].
Definition attrs_out (l : list (bytes * bytes)) : bytes := flat_map attr_out l.
Definition nl_attr (a : bytes * bytes) : bytes * bytes := (fst a, nl (snd a)).
Lemma attrs_loop_out attrs rest : forallb (fun a => good_name (fst a)) attrs = true -> forall fuel acc l c,
  length (attrs_out attrs ++ x3e :: rest) < fuel ->
  exists l', attrs_loop fuel acc (Dst (attrs_out attrs ++ x3e :: rest) None l c) =
    OK (1%Z, acc ++ map nl_attr attrs, false, Dst rest None l' c).
Proof.
  induction attrs as [|[n v] attrs IH]; intros Hg [|fuel] acc l c Hf; try lia.
  - cbn [attrs_out flat_map app map] in *. rewrite app_nil_r. cbn [attrs_loop].
    destruct (space_blank [] x3e rest l c eq_refl eq_refl) as [l1 E1]. cbn [app] in E1. rewrite E1. cbn [obind mustgetc getc d_in d_err d_line d_ctx].
    eexists. reflexivity.
  - cbn [forallb fst] in Hg. apply andb_prop in Hg as [Hn Hg].
    assert (Ei : attrs_out ((n, v) :: attrs) ++ x3e :: rest =
                 x20 :: n ++ x3d :: x22 :: escapeString v false ++ x22 :: attrs_out attrs ++ x3e :: rest).
    { unfold attrs_out, attr_out. cbn [flat_map fst snd app]. rewrite <- !app_assoc. cbn [app]. now rewrite <- !app_assoc. }
    rewrite Ei in *. clear Ei. cbn [attrs_loop].
    destruct n as [|a n]; [discriminate Hn|].
    assert (Ha : name_char a = true) by (cbn in Hn; now apply andb_prop in Hn as [? _]).
    destruct (name_char_ok NameAttr a Ha) as (_ & Hsp & Hbump & H2f & _ & H3e & _).
    set (tail := x3d :: x22 :: escapeString v false ++ x22 :: attrs_out attrs ++ x3e :: rest) in *.
    destruct (space_blank [x20] a (n ++ tail) l c eq_refl Hsp) as [l1 E1]. cbn [app] in E1 |- *. rewrite E1.
    cbn [obind mustgetc getc d_in d_err d_line d_ctx]. rewrite H2f, H3e.
    change (ungetc a (Dst (n ++ tail) None (bump a l1) c)) with
      (Dst (a :: n ++ tail) None (if Byte.eqb a x0a then (bump a l1 - 1)%Z else bump a l1) c).
    set (l2 := if Byte.eqb a x0a then _ else _).
    destruct (name_good NameAttr (a :: n) x3d (x22 :: escapeString v false ++ x22 :: attrs_out attrs ++ x3e :: rest) l2 c Hn eq_refl) as [l3 E3].
    cbn [app] in E3. fold tail in E3. rewrite E3. cbn [obind]. unfold tail.
    destruct (space_blank [] x3d (x22 :: escapeString v false ++ x22 :: attrs_out attrs ++ x3e :: rest) l3 c eq_refl eq_refl) as [l4 E4].
    cbn [app] in E4. rewrite E4. cbn [obind mustgetc getc d_in d_err d_line d_ctx]. change (Byte.eqb x3d x3d) with true. cbv iota.
    destruct (space_blank [] x22 (escapeString v false ++ x22 :: attrs_out attrs ++ x3e :: rest) (bump x3d l4) c eq_refl eq_refl) as [l5 E5].
    cbn [app] in E5. rewrite E5. cbn [obind]. unfold attrval. cbn [mustgetc getc d_in d_err d_line d_ctx]. change (Byte.eqb x22 x22) with true. cbv iota.
    destruct (text_attr v (attrs_out attrs ++ x3e :: rest) (bump x22 l5) c) as [l6 E6]. rewrite E6. cbn [obind].
    destruct (IH Hg fuel (acc ++ [(a :: n, nl v)]) l6 c) as [l7 E7].
    { unfold tail in Hf. cbn [app length] in Hf. rewrite !app_length in *. cbn [length] in Hf. rewrite !app_length in Hf. cbn [length] in *.
      rewrite app_length in Hf. cbn [length] in Hf. lia. }
    exists l7. etransitivity; [exact E7|]. cbn [map nl_attr fst snd]. now rewrite <- app_assoc.
Qed.
Lemma startTag_out start attrs rest l c : good_name start = true -> forallb (fun a => good_name (fst a)) attrs = true ->
  exists l', decodeStartTag (Dst (x3c :: start ++ attrs_out attrs ++ x3e :: rest) None l c) =
    OK (1%Z, start, map nl_attr attrs, false, [], Dst rest None l' c).
Proof.
  intros Hs Ha. destruct start as [|a n] eqn:Es; [discriminate Hs|].
  assert (Hc : name_char a = true) by (cbn in Hs; now apply andb_prop in Hs as [? _]).
  destruct (name_char_ok NameTag a Hc) as (_ & Hsp & Hbump & H2f & H21 & H3e & _).
  unfold decodeStartTag. cbn [app getc mustgetc d_in d_err d_line d_ctx]. change (Byte.eqb x3c x3c) with true. cbn [negb].
  rewrite H2f, H21.
  set (tail := attrs_out attrs ++ x3e :: rest).
  assert (Ht : exists b r, tail = b :: r /\ isNameByte NameTag b = false).
  { unfold tail. destruct attrs as [|[n' v'] attrs]; cbn; eauto. }
  destruct Ht as (b & r & Et & Hb).
  change (ungetc a (Dst (n ++ tail) None (bump a (bump x3c l)) c)) with
    (Dst ((a :: n) ++ tail) None (if Byte.eqb a x0a then (bump a (bump x3c l) - 1)%Z else bump a (bump x3c l)) c).
  set (l2 := if Byte.eqb a x0a then _ else _). rewrite Et.
  destruct (name_good NameTag (a :: n) b r l2 c Hs Hb) as [l3 E3]. rewrite E3. cbn [obind]. rewrite <- Et. unfold tail.
  destruct (attrs_loop_out attrs rest Ha (fuel_of (Dst (attrs_out attrs ++ x3e :: rest) None l3 c)) [] l3 c) as [l4 E4];
    [unfold fuel_of; cbn [d_in]; lia|]. rewrite E4. cbn [obind]. eexists. reflexivity.
Qed.
Lemma endTag_out start rest l c : good_name start = true ->
  exists l', decodeEndTag (Dst (x3c :: x2f :: start ++ x3e :: rest) None l c) = OK (true, start, Dst rest None l' c).
Proof.
  intros Hs. unfold decodeEndTag. cbn [getc mustgetc d_in d_err d_line d_ctx]. change (Byte.eqb x3c x3c) with true.
  change (Byte.eqb x2f x2f) with true. cbn [negb].
  destruct (name_good NameTag start x3e rest (bump x2f (bump x3c l)) c Hs eq_refl) as [l1 E1]. rewrite E1. cbn [obind].
  destruct (space_blank [] x3e rest l1 c eq_refl eq_refl) as [l2 E2]. cbn [app] in E2. rewrite E2. cbn [obind mustgetc getc d_in d_err d_line d_ctx].
  eexists. reflexivity.
Qed.

(** ** The text of a plain tag *)
Section Out.
Variable (prefix indent : bytes).
Definition compact : bool := negb (nonempty prefix) && negb (nonempty indent).
Definition line_to (d : Z) : bytes := if compact then [] else x0a :: prefix ++ concat (repeat indent (Z.to_nat d)).
Definition deeper (d : Z) : Z := if compact then d else (d + 1)%Z.
Section KidsOut.
Variable (out : tag -> bytes) (pretty : bool) (d : Z).
Fixpoint kids_out (l : list tag) : bytes :=
  match l with
  | [] => []
  | sub :: l => out sub ++ (if pretty then match l with [] => line_to d | _ => line_to (deeper d) end else []) ++ kids_out l
  end.
End KidsOut.
Fixpoint tag_out (d : Z) (ni : bool) (t : tag) : bytes :=
  let 'Tag start _ attr _ _ _ tx noind tags := t in
  let pretty := negb ni && negb noind in
  x3c :: start ++ attrs_out attr ++ x3e ::
  (if pretty && nonempty tags then line_to (deeper d) else []) ++ escapeString tx true ++
  kids_out (tag_out (if pretty then deeper d else d) (ni || noind)) pretty d tags ++
  x3c :: x2f :: start ++ [x3e].

Fixpoint tag_ind' (P : tag -> Prop)
  (H : forall st en at_ em co cd tx ni ts, Forall P ts -> P (Tag st en at_ em co cd tx ni ts)) (t : tag) : P t :=
  match t with
  | Tag st en at_ em co cd tx ni ts => H st en at_ em co cd tx ni ts
      ((fix go l : Forall P l := match l with [] => Forall_nil _ | a :: l => Forall_cons _ (tag_ind' P H a) (go l) end) ts)
  end.
Lemma put_put s a b : put (put s a) b = put s (a ++ b).
Proof. unfold put. cbn. now rewrite app_assoc. Qed.
Lemma put_nil s : put s [] = s.
Proof. destruct s. unfold put. cbn. now rewrite app_nil_r. Qed.
Lemma good_checkName k n : good_name n = true -> checkName k n = true.
Proof.
  unfold good_name, checkName. intros H. apply andb_prop in H as [-> H]. cbn [andb].
  rewrite forallb_forall in *. intros b Hb. now apply name_char_ok, H.
Qed.
Lemma put_attrs_out attrs : forallb (fun a => good_name (fst a)) attrs = true -> forall s, put_attrs attrs s = put s (attrs_out attrs).
Proof.
  induction attrs as [|[n v] attrs IH]; intros Hg s; [now rewrite put_nil|].
  cbn [forallb fst] in Hg. apply andb_prop in Hg as [Hn Hg]. cbn [put_attrs]. rewrite (good_checkName _ _ Hn), (IH Hg), put_put. reflexivity.
Qed.
Lemma writeIndent_up s : writeIndent prefix indent 1 false s = Est (deeper (e_depth s)) (e_warn s) (e_out s ++ line_to (deeper (e_depth s))).
Proof. unfold writeIndent, deeper, line_to. fold compact. destruct compact; [destruct s; cbn; now rewrite app_nil_r|reflexivity]. Qed.
Lemma writeIndent_same s : writeIndent prefix indent 0 false s = Est (e_depth s) (e_warn s) (e_out s ++ line_to (e_depth s)).
Proof. unfold writeIndent, line_to. fold compact. destruct compact; [destruct s; cbn; now rewrite app_nil_r|reflexivity]. Qed.
Lemma writeIndent_down s d : e_depth s = deeper d -> writeIndent prefix indent (-1) false s = Est d (e_warn s) (e_out s ++ line_to d).
Proof.
  unfold writeIndent, deeper, line_to. fold compact. destruct compact.
  - intros <-. destruct s; cbn. now rewrite app_nil_r.
  - intros E. cbn. rewrite E. now replace (d + 1 - 1)%Z with d by lia.
Qed.
Section EncKids.
Variable (ni pretty : bool).
Fixpoint enc_kids (l : list tag) (s : est) : est :=
  match l with
  | [] => s
  | sub :: l =>
      let '(wrote, s) := encodeTag prefix indent sub false ni s in
      enc_kids l (if wrote && pretty then
              match l with
              | [] => writeIndent prefix indent (-1) false s
              | _ => writeIndent prefix indent 0 false s
              end
            else s)
  end.
End EncKids.
Lemma encodeTag_out t : plain_tag t = true -> forall ni s,
  encodeTag prefix indent t false ni s = (true, put s (tag_out (e_depth s) ni t)).
Proof.
  induction t as [start end_ attr empty comment cdata tx noind tags IH] using tag_ind'. intros Hp ni s.
  cbn [plain_tag] in Hp. do 6 (apply andb_prop in Hp as [Hp ?]).
  destruct empty; [discriminate|]. destruct comment; [discriminate|]. destruct cdata; [discriminate|]. destruct end_; [|discriminate].
  cbn [encodeTag nonempty negb andb]. rewrite (good_checkName _ _ Hp). cbn [negb].
  rewrite andb_false_r. cbv iota. cbn [tag_out].
  rewrite (put_attrs_out attr) by assumption. rewrite !put_put.
  set (pretty := negb ni && negb noind).
  set (d := e_depth s).
  set (s1 := put s _). 
  assert (Hkids : forall l s2, Forall (fun t => plain_tag t = true -> forall ni s,
      encodeTag prefix indent t false ni s = (true, put s (tag_out (e_depth s) ni t))) l ->
      forallb plain_tag l = true -> l <> [] -> e_depth s2 = (if pretty then deeper d else d) ->
      enc_kids (ni || noind) pretty l s2 = Est d (e_warn s2) (e_out s2 ++ kids_out (tag_out (if pretty then deeper d else d) (ni || noind)) pretty d l)).
  { clear. induction l as [|sub l IHl]; intros s2 HF Hpl Hne Hd; [congruence|]. inversion HF as [|? ? Hsub HF']; subst.
    cbn [forallb] in Hpl. apply andb_prop in Hpl as [Hps Hpl]. cbn [kids_out enc_kids]. rewrite (Hsub Hps), Hd. cbn [andb].
    destruct l as [|sub2 l].
    - destruct pretty.
      + rewrite (writeIndent_down _ d) by exact Hd. cbn [put e_depth e_warn e_out]. rewrite app_nil_r, <- app_assoc. reflexivity.
      + cbn [put]. rewrite !app_nil_r. now rewrite <- Hd.
    - destruct pretty.
      + rewrite writeIndent_same. cbn [put e_depth e_warn e_out]. rewrite IHl; [|exact HF'|exact Hpl|easy|exact Hd].
        cbn [e_warn e_out]. rewrite Hd, <- !app_assoc. reflexivity.
      + rewrite IHl; [|exact HF'|exact Hpl|easy|exact Hd]. cbn [put e_warn e_out]. now rewrite <- app_assoc. }
  match goal with |- (true, put ?g ?e) = _ => change g with
    (enc_kids (ni || noind) pretty tags (put (if pretty && nonempty tags then writeIndent prefix indent 1 false s1 else s1) (escapeString tx true))) end.
  f_equal. destruct tags as [|t0 tags].
  - cbn [nonempty]. rewrite andb_false_r. cbn [kids_out enc_kids app]. unfold s1. rewrite !put_put. f_equal. cbn [app].
    rewrite <- ?app_assoc. cbn [app]. rewrite <- ?app_assoc. reflexivity.
  - rewrite Hkids; [|exact IH|assumption|easy|].
    + rewrite !andb_true_r. destruct pretty.
      * rewrite writeIndent_up. unfold s1, put. cbn [e_depth e_warn e_out]. fold d. f_equal.
        cbn [app]. rewrite <- ?app_assoc. cbn [app]. rewrite <- ?app_assoc. cbn [app]. reflexivity.
      * unfold s1, put. cbn [e_depth e_warn e_out]. fold d. f_equal.
        cbn [app]. rewrite <- ?app_assoc. cbn [app]. rewrite <- ?app_assoc. cbn [app]. reflexivity.
    + cbn [nonempty andb]. rewrite andb_true_r. destruct pretty; [rewrite writeIndent_up|]; reflexivity.
Qed.

(** ** Reading it back *)
Hypothesis (Hprefix : forallb isSpace prefix = true) (Hindent : forallb isSpace indent = true).
Lemma forallb_concat_repeat n : forallb isSpace (concat (repeat indent n)) = true.
Proof. induction n as [|n IH]; [reflexivity|]. cbn. now rewrite forallb_app, Hindent, IH. Qed.
Lemma line_blank d : forallb isSpace (line_to d) = true.
Proof. unfold line_to. destruct compact; [reflexivity|]. cbn. now rewrite forallb_app, Hprefix, forallb_concat_repeat. Qed.

Definition no_cdata (i : bytes) : Prop :=
  exists b r, i = b :: r /\ isSpace b = false /\ (Byte.eqb b x3c = false \/ exists b2 r2, b = x3c /\ r = b2 :: r2 /\ Byte.eqb b2 x21 = false).
Lemma cdata_none i l c : no_cdata i -> exists l', decodeCData (Dst i None l c) = OK (true, None, Dst i None l' c).
Proof.
  intros (b & r & -> & _ & H). unfold decodeCData. change (str "<![CDATA[") with [x3c; x21; x5b; x43; x44; x41; x54; x41; x5b].
  cbn [cdata_open getc d_in d_err d_line d_ctx]. destruct H as [H|(b2 & r2 & -> & -> & H)].
  - rewrite H. cbn [fold_left]. eexists. reflexivity.
  - change (Byte.eqb x3c x3c) with true. cbn [cdata_open getc d_in d_err d_line d_ctx]. rewrite H. cbn [fold_left]. eexists. reflexivity.
Qed.
Lemma escape_first tx r : no_cdata (x3c :: r) -> no_cdata (escapeString tx true ++ x3c :: r).
Proof.
  intros Hr. destruct tx as [|b tx]; [exact Hr|]. cbn [escapeString andb]. destruct (isSpace b) eqn:Es.
  - exists x26. eexists. split; [cbn [app]; reflexivity|]. split; [reflexivity|]. now left.
  - destruct (escape_cases b) as [(Ee & _ & _ & E3c & _)|(e & Ee & _)]; rewrite Ee.
    + exists b. eexists. split; [cbn [app]; reflexivity|]. split; [exact Es|]. now left.
    + exists x26. eexists. split; [cbn [app]; reflexivity|]. split; [reflexivity|]. now left.
Qed.
Lemma tag_out_first t d ni rest : plain_tag t = true -> exists b r, tag_out d ni t ++ rest = x3c :: b :: r /\ name_char b = true.
Proof.
  destruct t as [start ? ? ? ? ? ? ? ?]. cbn [plain_tag]. intros H. do 6 (apply andb_prop in H as [H ?]).
  destruct start as [|b n]; [discriminate H|]. cbn in H. apply andb_prop in H as [H _].
  cbn [tag_out app]. eexists _, _. split; [reflexivity|exact H].
Qed.
Lemma kids_first out pretty d l start rest : (forall t rest, In t l -> exists b r, out t ++ rest = x3c :: b :: r /\ name_char b = true) ->
  exists b r, kids_out out pretty d l ++ x3c :: x2f :: start ++ x3e :: rest = x3c :: b :: r /\ Byte.eqb b x21 = false.
Proof.
  intros H. destruct l as [|t l].
  - exists x2f. eexists. split; reflexivity.
  - cbn [kids_out]. rewrite <- app_assoc. destruct (H t ((if pretty then match l with [] => line_to d | _ => line_to (deeper d) end else []) ++ kids_out out pretty d l ++ x3c :: x2f :: start ++ x3e :: rest) (or_introl eq_refl)) as (b & r & E & Hb).
    rewrite <- app_assoc. rewrite E. exists b, r. split; [reflexivity|]. now apply (name_char_ok NameTag).
Qed.

Definition parses (out : tag -> bytes) (t : tag) : Prop := forall fuel rest l c, 2 * length (out t ++ rest) + 2 <= fuel ->
  exists t' l', decodeTag fuel false (Dst (out t ++ rest) None l c) = OK (Some t', None, Dst rest None l' c) /\ bare t' = settled t.
Lemma kids_parse out pretty d start : good_name start = true -> forall ts,
  Forall (parses out) ts -> (forall t rest, In t ts -> exists b r, out t ++ rest = x3c :: b :: r /\ name_char b = true) ->
  forall w fuel acc rest l c, forallb isSpace w = true ->
  2 * length (w ++ kids_out out pretty d ts ++ x3c :: x2f :: start ++ x3e :: rest) + 3 <= fuel ->
  exists us l', kids fuel acc (Dst (w ++ kids_out out pretty d ts ++ x3c :: x2f :: start ++ x3e :: rest) None l c) =
    OK (Some (acc ++ us, start), None, Dst rest None l' c) /\ map bare us = map settled ts.
Proof.
  intros Hs. induction ts as [|t ts IH]; intros HF Hfirst w [|fuel] acc rest l c Hw Hf; try lia.
  - cbn [kids_out app]. cbn [kids].
    destruct (space_blank w x3c (x2f :: start ++ x3e :: rest) l c Hw eq_refl) as [l1 E1]. rewrite E1.
    cbn [obind getc mustgetc d_in d_err d_line d_ctx]. change (Byte.eqb x3c x3c) with true. change (Byte.eqb x2f x2f) with true. cbn [negb].
    change (ungetc x3c (ungetc x2f (Dst (start ++ x3e :: rest) None (bump x2f (bump x3c l1)) c))) with
      (Dst (x3c :: x2f :: start ++ x3e :: rest) None l1 c).
    destruct (endTag_out start rest l1 c Hs) as [l2 E2]. rewrite E2. cbn [obind].
    exists [], l2. rewrite app_nil_r. now split.
  - inversion HF as [|? ? Ht HF']; subst.
    set (w' := if pretty then match ts with [] => line_to d | _ => line_to (deeper d) end else []).
    set (next := w' ++ kids_out out pretty d ts ++ x3c :: x2f :: start ++ x3e :: rest).
    destruct (Hfirst t next (or_introl eq_refl)) as (b & r & Eb & Hb).
    assert (Hw' : forallb isSpace w' = true) by (unfold w'; destruct pretty; [destruct ts; apply line_blank|reflexivity]).
    assert (Ei : kids_out out pretty d (t :: ts) ++ x3c :: x2f :: start ++ x3e :: rest =
                 out t ++ next).
    { cbn [kids_out]. unfold next. fold w'. now rewrite <- !app_assoc. }
    rewrite Ei in Hf |- *. clear Ei. cbn [kids].
    rewrite Eb in Hf |- *.
    destruct (space_blank w x3c (b :: r) l c Hw eq_refl) as [l1 E1]. rewrite E1.
    cbn [obind getc mustgetc d_in d_err d_line d_ctx]. change (Byte.eqb x3c x3c) with true. cbn [negb].
    destruct (name_char_ok NameTag b Hb) as (_ & _ & Hbump & H2f & _). rewrite H2f.
    assert (Eu : exists l2, ungetc x3c (ungetc b (Dst r None (bump b (bump x3c l1)) c)) = Dst (x3c :: b :: r) None l2 c) by (eexists; reflexivity).
    destruct Eu as [l2 Eu]. rewrite Eu. rewrite <- Eb.
    destruct (Ht fuel next l2 c) as (t' & l3 & E3 & B3); [rewrite Eb; rewrite app_length in Hf; lia|]. rewrite E3. cbn [obind].
    destruct (IH HF' (fun u rest Hu => Hfirst u rest (or_intror Hu)) w' fuel (acc ++ [t']) rest l3 c Hw') as (us & l4 & E4 & B4).
    { fold next. assert (L : length next < length (x3c :: b :: r)).
      { rewrite <- Eb, app_length. enough (1 <= length (out t)) by lia.
        destruct (Hfirst t [] (or_introl eq_refl)) as (b' & r' & E' & _). rewrite app_nil_r in E'. rewrite E'. cbn. lia. }
      rewrite app_length in Hf. lia. }
    fold next in E4. exists (t' :: us), l4. split; [rewrite E4; now rewrite <- app_assoc|]. cbn [map]. now rewrite B3, B4.
Qed.
Lemma content_space_none root b r l c : isSpace b = false ->
  exists ni l', content_space root (Dst (b :: r) None l c) = OK (ni, Dst (b :: r) None l' c).
Proof.
  intros Hb. destruct (readSpace_blank [] b r l c eq_refl Hb) as [l1 E1]. destruct (space_blank [] b r l c eq_refl Hb) as [l2 E2].
  cbn [app] in E1, E2. unfold content_space, detect_indent. destruct root.
  - rewrite E1. cbn [obind after_newline]. eexists _, _. reflexivity.
  - destruct (_ || _); [rewrite E1|rewrite E2]; cbn [obind]; eexists _, _; reflexivity.
Qed.
(** A plain tag, with white space before it when it is the root. *)
Definition root_ok (root : bool) (t : tag) : Prop :=
  root = false \/ forall s, root_check (t_start t) (map nl_attr (t_attr t)) s = None.
Definition after_lead (root : bool) (p : bytes) (c : ctx) : ctx :=
  if root && nonempty p then Ctx (c_end c) (c_stack c) p (c_indent c) (c_warn c) else c.
Lemma tag_parse_gen t : plain_tag t = true -> (forall d ni, Forall (parses (tag_out d ni)) (t_tags t)) ->
  forall root p d ni fuel rest l c, (root = false -> p = []) -> forallb isSpace p = true -> root_ok root t ->
  2 * length (tag_out d ni t ++ rest) + 2 <= fuel ->
  exists t' l', decodeTag fuel root (Dst (p ++ tag_out d ni t ++ rest) None l c) = OK (Some t', None, Dst rest None l' (after_lead root p c)) /\
    bare t' = settled t.
Proof.
  destruct t as [start end_ attr empty comment cdata tx noind tags]. cbn [t_tags]. intros Hp IH root p d ni [|fuel] rest l c Hrp Hbp Hroot Hf; [lia|].
  assert (Hfirst : forall u rest, In u tags -> exists b r, tag_out (if negb ni && negb noind then deeper d else d) (ni || noind) u ++ rest = x3c :: b :: r /\ name_char b = true).
  { intros u rest' Hu. apply tag_out_first. cbn [plain_tag] in Hp. do 6 (apply andb_prop in Hp as [Hp ?]).
    match goal with H : forallb plain_tag tags = true |- _ => rewrite forallb_forall in H; now apply H end. }
  cbn [plain_tag] in Hp. do 6 (apply andb_prop in Hp as [Hp ?]).
  destruct empty; [discriminate|]. destruct comment; [discriminate|]. destruct cdata; [discriminate|]. destruct end_; [|discriminate].
  cbn [tag_out] in *. set (pretty := negb ni && negb noind) in *.
  set (w := if pretty && nonempty tags then line_to (deeper d) else []).
  set (out := tag_out (if pretty then deeper d else d) (ni || noind)) in *.
  set (K := kids_out out pretty d tags).
  assert (Ei : forall q, (x3c :: start ++ attrs_out attr ++ x3e :: w ++ escapeString tx true ++ K ++ x3c :: x2f :: start ++ [x3e]) ++ q =
    x3c :: start ++ attrs_out attr ++ x3e :: w ++ escapeString tx true ++ K ++ x3c :: x2f :: start ++ x3e :: q).
  { intros q. cbn [app]. repeat (rewrite <- app_assoc; cbn [app]). reflexivity. }
  fold w in Hf. fold K in Hf. rewrite Ei in Hf |- *. clear Ei.
  assert (Hw : forallb isSpace w = true) by (unfold w; destruct (pretty && nonempty tags); [apply line_blank|reflexivity]).
  cbn [decodeTag d_err].
  assert (E0 : exists l0, lead_space root (Dst (p ++ x3c :: start ++ attrs_out attr ++ x3e :: w ++ escapeString tx true ++ K ++ x3c :: x2f :: start ++ x3e :: rest) None l c) =
     OK (p, Dst (x3c :: start ++ attrs_out attr ++ x3e :: w ++ escapeString tx true ++ K ++ x3c :: x2f :: start ++ x3e :: rest) None l0 c)).
  { unfold lead_space. destruct root; [now apply readSpace_blank|]. rewrite (Hrp eq_refl). eexists. reflexivity. }
  destruct E0 as [l0 E0]. rewrite E0. clear E0. cbn [obind].
  match goal with |- context [decodeStartTag ?x] => assert (Ex : x = Dst (d_in x) None l0 (after_lead root p c)) end.
  { unfold after_lead. destruct root; cbn [andb]; [destruct (nonempty p); reflexivity|rewrite (Hrp eq_refl); reflexivity]. }
  assert (Ey : d_in (if nonempty p then set_prefix (Dst (x3c :: start ++ attrs_out attr ++ x3e :: w ++ escapeString tx true ++ K ++ x3c :: x2f :: start ++ x3e :: rest) None l0 c) p
     else Dst (x3c :: start ++ attrs_out attr ++ x3e :: w ++ escapeString tx true ++ K ++ x3c :: x2f :: start ++ x3e :: rest) None l0 c) =
     x3c :: start ++ attrs_out attr ++ x3e :: w ++ escapeString tx true ++ K ++ x3c :: x2f :: start ++ x3e :: rest) by (destruct (nonempty p); reflexivity).
  rewrite Ex, Ey. clear Ex Ey. set (c1 := after_lead root p c).
  match goal with |- context [decodeStartTag (Dst (x3c :: start ++ attrs_out attr ++ x3e :: ?q) _ _ _)] =>
    destruct (startTag_out start attr q l0 c1 Hp ltac:(assumption)) as [l1 E1] end.
  rewrite E1. clear E1. cbn [obind]. change ((1 <? 0)%Z) with false. change ((1 =? 2)%Z) with false. change ((1 =? 0)%Z) with false. cbv iota.
  match goal with |- context [if root then root_check start (map nl_attr attr) ?x else None] =>
    replace (if root then root_check start (map nl_attr attr) x else None) with (@None xerr)
      by (destruct Hroot as [->|Hroot]; [reflexivity|cbn [t_start t_attr] in Hroot; now rewrite Hroot, Tauto.if_same]) end.
  cbv iota.
  match goal with |- context [space (set_stack ?x ?y)] => change (set_stack x y) with
    (Dst (d_in x) None l1 (Ctx (c_end c1) (l1 :: c_stack c1) (c_prefix c1) (c_indent c1) (c_warn c1))) end.
  cbn [d_in]. set (c2 := Ctx (c_end c1) (l1 :: c_stack c1) (c_prefix c1) (c_indent c1) (c_warn c1)).
  destruct (kids_first out pretty d tags start rest Hfirst) as (b & r & Eb & Hb). fold K in Eb.
  assert (HN : no_cdata (escapeString tx true ++ K ++ x3c :: x2f :: start ++ x3e :: rest)).
  { rewrite Eb. apply escape_first. exists x3c, (b :: r). split; [reflexivity|]. split; [reflexivity|]. right. eauto. }
  destruct HN as (a & q & Ea & Ha & HN). 
  assert (HN' : no_cdata (a :: q)) by (exists a, q; auto).
  rewrite Ea.
  destruct (space_blank w a q l1 c2 Hw Ha) as [l2 E2]. rewrite E2. cbn [obind].
  destruct (cdata_none (a :: q) l2 c2 HN') as [l3 E3]. rewrite E3. cbn [obind negb].
  destruct (content_space_none root a q l3 c2 Ha) as (ni' & l4 & E4). rewrite E4. cbn [obind].
  rewrite <- Ea, Eb.
  destruct (text_body tx (b :: r) l4 c2) as [l5 E5]. rewrite E5. cbn [obind]. rewrite <- Eb.
  destruct (kids_parse out pretty d start Hp tags (IH _ _) Hfirst [] fuel [] rest l5 c2 eq_refl) as (us & l6 & E6 & B6).
  { cbn [app]. fold K. clear -Hf. clearbody K w. revert Hf. generalize (K ++ x3c :: x2f :: start ++ x3e :: rest). intros T Hf.
    cbn [length] in Hf. rewrite !app_length in Hf. cbn [length] in Hf. rewrite !app_length in Hf. lia. }
  cbn [app] in E6. fold K in E6. rewrite E6. cbn [obind d_ctx c_stack c2].
  assert (Hc : Ctx (c_end c1) (c_stack c1) (c_prefix c1) (c_indent c1) (c_warn c1) = c1) by (destruct c1; reflexivity).
  unfold set_stack, set_ctx. cbn [d_in d_err d_line d_ctx c_end c_prefix c_indent c_warn c2]. rewrite Hc.
  eexists _, _. split; [reflexivity|]. cbn [bare settled]. rewrite B6. reflexivity.
Qed.
Lemma tag_parse t : plain_tag t = true -> forall d ni, parses (tag_out d ni) t.
Proof.
  induction t as [start end_ attr empty comment cdata tx noind tags IH] using tag_ind'. intros Hp d ni fuel rest l c Hf.
  apply (tag_parse_gen _ Hp) with (root := false) (p := []); try easy; [|now left].
  intros d' ni'. cbn [t_tags]. cbn [plain_tag] in Hp. apply andb_prop in Hp as [_ Hp]. rewrite forallb_forall in Hp.
  apply Forall_forall. intros u Hu. rewrite Forall_forall in IH. now apply IH; [|apply Hp].
Qed.
End Out.

(** The whole document. *)
Lemma document_roundtrip d t e : doc_root d = Some t -> doc_exclude d = false -> plain_tag t = true -> root_ok true t ->
  blank (doc_prefix d) -> blank (doc_indent d) ->
  fst (WriteTo d) = [] /\
  exists p i t', ReadFrom (snd (WriteTo d)) e = OK (Doc p i (doc_suffix d) false (Some t') []) /\ bare t' = settled t.
Proof.
  intros Er Ee Hp Hroot Hpre Hind. unfold WriteTo. rewrite Er, Ee. rewrite (encodeTag_out _ _ _ Hp). cbn [put e_depth e_warn e_out fst snd].
  split; [reflexivity|]. rewrite <- app_assoc. unfold ReadFrom.
  destruct (tag_parse_gen (doc_prefix d) (doc_indent d) Hpre Hind t Hp) with (root := true) (p := doc_prefix d) (d := 0%Z) (ni := t_noindent t)
    (fuel := 2 * length (doc_prefix d ++ tag_out (doc_prefix d) (doc_indent d) 0 (t_noindent t) t ++ doc_suffix d) + 4)
    (rest := doc_suffix d) (l := 1%Z) (c := Ctx e [] [] [] []) as (t' & l' & E & B); try easy.
  { intros d' ni'. apply Forall_forall. intros u Hu. apply tag_parse; [exact Hpre|exact Hind|].
    destruct t as [start end_ attr empty comment cdata tx noind tags]. cbn [plain_tag t_tags] in *. apply andb_prop in Hp as [_ Hp].
    rewrite forallb_forall in Hp. now apply Hp. }
  { rewrite (app_length (doc_prefix d)). lia. }
  rewrite E. cbn [d_err d_in d_ctx]. unfold after_lead. cbn [andb]. destruct (nonempty (doc_prefix d)); cbn [c_prefix c_indent c_warn]; eexists _, _, _; (split; [reflexivity|exact B]).
Qed.
