(** XmlGrammarTags.v - the XML reader follows the grammar of SpecXmlText: tags
    and the document. *)
From Verif Require Import Base XmlText XmlDoc XmlTotal SpecXml XmlLayout SpecXmlText XmlGrammar.

Lemma warned_nil c : warned c [] = c.
Proof. destruct c. unfold warned. cbn. now rewrite app_nil_r. Qed.
Lemma warned_warned c a b : warned (warned c a) b = warned c (a ++ b).
Proof. unfold warned. cbn. now rewrite app_assoc. Qed.

(** ** The rest of a phrase is a suffix *)
Definition suffix (rest raw : bytes) : Prop := exists p, raw = p ++ rest.
Lemma suffix_refl r : suffix r r.  Proof. now exists []. Qed.
Lemma suffix_cons b r raw : suffix r raw -> suffix r (b :: raw).
Proof. intros [p ->]. now exists (b :: p). Qed.
Lemma suffix_app p r raw : suffix r raw -> suffix r (p ++ raw).
Proof. intros [q ->]. exists (p ++ q). now rewrite app_assoc. Qed.
Lemma suffix_trans a b c : suffix a b -> suffix b c -> suffix a c.
Proof. intros [p ->] [q ->]. exists (q ++ p). now rewrite app_assoc. Qed.
Lemma suffix_in a b x : suffix a b -> In x a -> In x b.
Proof. intros [p ->] H. apply in_or_app. now right. Qed.
Lemma suffix_length a b : suffix a b -> length a <= length b.
Proof. intros [p ->]. rewrite app_length. lia. Qed.
Lemma skips_suffix w raw rest : skips w raw rest -> suffix rest raw.
Proof. intros (-> & _). now exists w. Qed.
Lemma run_suffix stop n raw rest : run stop n raw rest -> suffix rest raw.
Proof. intros (-> & _). now exists n. Qed.
Lemma past_suffix raw rest : past raw rest -> suffix rest raw.
Proof. intros [j [-> _]]. exists (j ++ [x3e]). now rewrite <- app_assoc. Qed.
Lemma reference_suffix raw u r : reference raw u r -> suffix r raw.
Proof. destruct 1; repeat (apply suffix_app || apply suffix_refl || apply suffix_cons). Qed.
Lemma content_suffix quoted raw v rest : content quoted raw v rest -> suffix rest raw.
Proof.
  induction 1 as [rest ->|rest ->|b raw v rest H26 H0d Hc Hm _ IH|raw v rest _ IH|raw v rest Hl _ IH|raw u r v rest Hr _ IH];
    try apply suffix_refl; try (repeat apply suffix_cons; assumption); try (apply suffix_cons, suffix_refl).
  apply suffix_cons. eapply suffix_trans; [exact IH|]. now apply reference_suffix in Hr.
Qed.
Lemma section_suffix raw cd rest : section raw cd rest -> suffix rest raw.
Proof. destruct 1 as [|raw body v rest [-> _] _]; [apply suffix_refl|]. repeat apply suffix_app. apply suffix_refl. Qed.

Section Input.
Variable input : bytes.
Let K := K_of input.
Lemma warning_at msg rest c : [syntax (at_ K rest c) msg] = warning input msg rest.
Proof. reflexivity. Qed.
Lemma attributes_in raw x rest : attributes input raw x rest -> In x3e raw /\ suffix rest raw.
Proof.
  induction 1 as [w raw rest H|w raw rest H|w0 raw r0 n r1 w1 r2 w2 r3 v r4 l f ws rest H0 _ Hn _ H1 H2 Hv _ IH
    |w raw b r rest H Hb Hp|w raw b r rest H H2f H3e Hw Hp|w0 raw r0 n r1 w1 b r2 rest H0 _ Hn _ H1 Hb Hp].
  - apply skips_suffix in H. split; [apply (suffix_in _ _ _ H); now left|eapply suffix_trans; [|exact H]; apply suffix_cons, suffix_refl].
  - apply skips_suffix in H. split; [apply (suffix_in _ _ _ H); right; now left|eapply suffix_trans; [|exact H]; repeat apply suffix_cons; apply suffix_refl].
  - assert (S : suffix r4 raw).
    { apply skips_suffix in H0, H1, H2. apply run_suffix in Hn. apply content_suffix in Hv.
      eapply suffix_trans; [exact Hv|]. eapply suffix_trans; [apply suffix_cons, suffix_refl|]. eapply suffix_trans; [exact H2|].
      eapply suffix_trans; [apply suffix_cons, suffix_refl|]. eapply suffix_trans; [exact H1|]. eapply suffix_trans; eassumption. }
    destruct IH as [I1 I2]. split; [now apply (suffix_in _ _ _ S)|eapply suffix_trans; eassumption].
  - apply skips_suffix in H. split.
    + apply (suffix_in _ _ _ H). right. right. now apply (past_in _ rest).
    + eapply suffix_trans; [|exact H]. repeat apply suffix_cons. now apply past_suffix.
  - apply skips_suffix in H. split.
    + apply (suffix_in _ _ _ H). now apply (past_in _ rest).
    + eapply suffix_trans; [|exact H]. now apply past_suffix.
  - apply skips_suffix in H0, H1. apply run_suffix in Hn. assert (S : suffix (b :: r2) raw) by (eapply suffix_trans; [exact H1|eapply suffix_trans; eassumption]). split.
    + apply (suffix_in _ _ _ S). right. now apply (past_in _ rest).
    + eapply suffix_trans; [|exact S]. apply suffix_cons. now apply past_suffix.
Qed.
Lemma start_tag_in raw x rest : start_tag input raw x rest -> In x3e raw /\ suffix rest raw /\ S (length rest) <= length raw.
Proof.
  destruct 1 as [n raw r l f ws rest (-> & Hn & _) Hne _ _ Ha|b r rest Hb Hp].
  - apply attributes_in in Ha as [Ha Hs]. split; [apply in_or_app; now right|]. split; [now apply suffix_app|].
    apply suffix_length in Hs. rewrite app_length. destruct n; [congruence|cbn; lia].
  - split; [now apply (past_in _ rest)|]. split; [now apply past_suffix|]. now apply past_length.
Qed.
Lemma comment_in raw t rest : comment raw t rest -> In x3e raw /\ suffix rest raw /\ S (length rest) <= length raw.
Proof.
  destruct 1 as [body raw rest [-> _]]. split; [|split].
  - apply in_or_app. right. apply in_or_app. right. cbn. tauto.
  - repeat apply suffix_app. apply suffix_refl.
  - rewrite !app_length. cbn. lia.
Qed.
Lemma elements_in ind raw x rest : elements input ind raw x rest -> In x3e raw.
Proof.
  destruct 1 as [w raw n r1 w1 r0 rest H0 Hn _ H1|w raw r0 o ws r1 ts en ws' rest H0 _ He _].
  - apply skips_suffix in H0, H1. apply run_suffix in Hn. apply (suffix_in _ _ _ H0). right. right. apply (suffix_in _ _ _ Hn), (suffix_in _ _ _ H1). now left.
  - apply skips_suffix in H0. apply (suffix_in _ _ _ H0). right.
    destruct He as [raw' t rest' Hc|raw' n l k ws0 rest' Hs|raw' n l k ws0 q1 w1 q2 cd q3 w2 q4 tx q5 ts0 en0 ws0' rest' ni Hs _ _ _ _ _ _];
      [now apply comment_in in Hc|apply start_tag_in in Hs; apply Hs..].
Qed.

(** ** Attributes *)
Definition keep_state (f : fate) : Z := if f_keep f then 1%Z else 0%Z.
Lemma not_slash i : ~ begins [x2f] i -> match i with b :: _ => Byte.eqb b x2f = false | [] => True end.
Proof. destruct i as [|b i]; [easy|]. intros H. apply eqb_neq. intros ->. apply H. now exists i. Qed.
Lemma run_first stop n raw rest : run stop n raw rest -> n <> [] -> exists a r, raw = a :: r /\ wordy stop a.
Proof. intros (-> & Hn & _) Hne. destruct Hn as [|a n Ha Hn]; [congruence|]. now exists a, (n ++ rest). Qed.
Lemma wordy_gt stop a : wordy stop a -> Byte.eqb a x3e = false.
Proof. intros (_ & H & _). now apply eqb_neq. Qed.
Lemma attrs_name fuel acc w0 raw r0 n r1 c : skips w0 raw r0 -> ~ begins [x2f] r0 -> run [x3d] n r0 r1 -> n <> [] ->
  attrs_loop (S fuel) acc (at_ K raw c) =
  obind (space (at_ K r1 c)) (fun '(_, s) =>
    match mustgetc s with
    | (None, s) => OK ((-1)%Z, acc ++ [(n, [])], false, s)
    | (Some b, s) =>
        if Byte.eqb b x3d then
          ' (_, s) <- space s ;;
          ' (v, s) <- attrval s ;;
          match v with
          | None => OK ((-1)%Z, acc ++ [(n, [])], false, s)
          | Some v => attrs_loop fuel (acc ++ [(n, v)]) s
          end
        else
          ' (st, s) <- ignoreStartTag (syntax s "attribute name without = in element") s ;;
          OK (st, acc ++ [(n, [])], false, s)
    end).
Proof.
  intros H0 Hs Hn Hne. destruct (run_first _ _ _ _ Hn Hne) as (a & r & -> & Ha). cbn [attrs_loop].
  rewrite (space_at K _ _ _ _ c H0). cbn [obind]. rewrite mustgetc_at, (not_slash _ Hs), (wordy_gt _ _ Ha), ungetc_at.
  now rewrite (name_at K NameAttr n (a :: r) r1 c Hn Hne).
Qed.
Lemma attrs_loop_at raw x rest : attributes input raw x rest -> forall fuel acc c, length raw < fuel ->
  attrs_loop fuel acc (at_ K raw c) = OK (keep_state (snd (fst x)), acc ++ fst (fst x), f_empty (snd (fst x)), at_ K rest (warned c (snd x))).
Proof.
  induction 1 as [w raw rest H|w raw rest H|w0 raw r0 n r1 w1 r2 w2 r3 v r4 l f ws rest H0 Hs Hn Hne H1 H2 Hv _ IH
    |w raw b r rest H Hb Hp|w raw b r rest H H2f H3e Hw Hp|w0 raw r0 n r1 w1 b r2 rest H0 Hs Hn Hne H1 Hb Hp];
    intros [|fuel] acc c Hf; try lia; cbn [fst snd].
  - cbn [attrs_loop]. rewrite (space_at K _ _ _ _ c H). cbn [obind]. rewrite mustgetc_at. now rewrite warned_nil, app_nil_r.
  - cbn [attrs_loop]. rewrite (space_at K _ _ _ _ c H). cbn [obind]. rewrite mustgetc_at. change (Byte.eqb x2f x2f) with true. cbv iota.
    rewrite mustgetc_at. now rewrite warned_nil, app_nil_r.
  - rewrite (attrs_name _ _ _ _ _ _ _ _ H0 Hs Hn Hne). rewrite (space_at K _ _ _ _ c H1). cbn [obind]. rewrite mustgetc_at. change (Byte.eqb x3d x3d) with true. cbv iota.
    rewrite (space_at K _ _ _ _ c H2). cbn [obind]. unfold attrval. rewrite mustgetc_at. change (Byte.eqb x22 x22) with true. cbv iota.
    change (Some x22) with (quote_of true). rewrite (text_at K true _ _ _ c Hv). cbn [obind fst snd] in *.
    rewrite IH; [now rewrite <- app_assoc|].
    apply skips_length in H0, H1, H2. destruct Hn as (-> & _). apply content_length in Hv. rewrite app_length in H0. cbn [length] in *. lia.
  - cbn [attrs_loop]. rewrite (space_at K _ _ _ _ c H). cbn [obind]. rewrite mustgetc_at. change (Byte.eqb x2f x2f) with true. cbv iota.
    rewrite mustgetc_at, (proj2 (eqb_neq _ _) Hb), (ignoreStartTag_at K _ _ _ _ Hp), app_nil_r. reflexivity.
  - cbn [attrs_loop]. rewrite (space_at K _ _ _ _ c H). cbn [obind].
    rewrite mustgetc_at, (proj2 (eqb_neq _ _) H2f), (proj2 (eqb_neq _ _) H3e), ungetc_at.
    rewrite (name_none K NameAttr b r c Hw). cbn [obind]. rewrite (ignoreStartTag_at K _ _ _ _ Hp). reflexivity.
  - rewrite (attrs_name _ _ _ _ _ _ _ _ H0 Hs Hn Hne). rewrite (space_at K _ _ _ _ c H1). cbn [obind].
    rewrite mustgetc_at, (proj2 (eqb_neq _ _) Hb), (ignoreStartTag_at K _ _ _ _ Hp). reflexivity.
Qed.
Definition attrs_fails (raw : bytes) : Prop := forall fuel acc c, length raw < fuel ->
  exists l e s, attrs_loop fuel acc (at_ K raw c) = OK ((-1)%Z, l, e, s) /\ bad s.
Lemma attrs_loop_bad fuel acc s : bad s -> exists l e s', attrs_loop (S fuel) acc s = OK ((-1)%Z, l, e, s') /\ bad s'.
Proof. intros B. cbn [attrs_loop]. rewrite (space_bad s B). cbn [obind]. destruct (mustgetc_bad s B) as (s' & -> & B'). eauto. Qed.
Lemma attributes_or_fails : forall n raw, length raw <= n -> (exists x rest, attributes input raw x rest) \/ attrs_fails raw.
Proof.
  induction n as [|n IH]; intros raw Hn.
  { destruct raw; [|cbn in Hn; lia]. right. intros [|fuel] acc c Hf; [lia|]. cbn [attrs_loop].
    destruct (space_end K [] [] c) as (s & -> & B); [repeat split; constructor|]. cbn [obind]. destruct (mustgetc_bad s B) as (s' & -> & B'). eauto. }
  destruct (skips_exists raw) as (w & r0 & H0). pose proof (skips_length _ _ _ H0) as L0.
  destruct r0 as [|b r].
  { right. intros [|fuel] acc c Hf; [lia|]. cbn [attrs_loop]. destruct (space_end K _ _ c H0) as (s & -> & B). cbn [obind].
    destruct (mustgetc_bad s B) as (s' & -> & B'). eauto. }
  destruct (Byte.byte_eq_dec b x2f) as [->|H2f].
  { assert (E0 : forall fuel acc c, attrs_loop (S fuel) acc (at_ K raw c) =
      match mustgetc (at_ K r c) with
      | (None, s) => OK ((-1)%Z, acc, true, s)
      | (Some b, s) => if Byte.eqb b x3e then OK (1%Z, acc, true, s)
                       else ' (st, s) <- ignoreStartTag (syntax s "expected /> in element") s ;; OK (st, acc, true, s)
      end).
    { intros. cbn [attrs_loop]. rewrite (space_at K _ _ _ _ c H0). cbn [obind]. now rewrite mustgetc_at. }
    destruct r as [|b r].
    - right. intros [|fuel] acc c Hf; [lia|]. rewrite E0. destruct (mustgetc_end K c) as (s & -> & B). eauto.
    - destruct (Byte.byte_eq_dec b x3e) as [->|H3e]; [left; eexists _, _; apply (Attrs_empty _ _ _ _ H0)|].
      destruct (past_exists r) as [[rest Hp]|Hp]; [left; eexists _, _; now apply (Attrs_slash _ _ _ b r rest H0)|].
      right. intros [|fuel] acc c Hf; [lia|]. rewrite E0, mustgetc_at, (proj2 (eqb_neq _ _) H3e).
      destruct (ignoreStartTag_end K (syntax (at_ K r c) "expected /> in element") r c Hp) as (s & -> & B). cbn [obind]. eauto. }
  destruct (Byte.byte_eq_dec b x3e) as [->|H3e]; [left; eexists _, _; apply (Attrs_end _ _ _ _ H0)|].
  assert (Hs : ~ begins [x2f] (b :: r)) by (intros [r' E]; injection E as -> _; congruence).
  assert (E0 : forall fuel acc c, attrs_loop (S fuel) acc (at_ K raw c) =
      ' (n, s) <- name NameAttr (at_ K (b :: r) c) ;;
      match n with
      | None =>
          ' (st, s) <- ignoreStartTag (syntax s "expected attribute name in element") s ;;
          OK (st, acc ++ [([], [])], false, s)
      | Some n =>
          ' (_, s) <- space s ;;
          match mustgetc s with
          | (None, s) => OK ((-1)%Z, acc ++ [(n, [])], false, s)
          | (Some b, s) =>
              if Byte.eqb b x3d then
                ' (_, s) <- space s ;;
                ' (v, s) <- attrval s ;;
                match v with
                | None => OK ((-1)%Z, acc ++ [(n, [])], false, s)
                | Some v => attrs_loop fuel (acc ++ [(n, v)]) s
                end
              else
                ' (st, s) <- ignoreStartTag (syntax s "attribute name without = in element") s ;;
                OK (st, acc ++ [(n, [])], false, s)
          end
      end).
  { intros. cbn [attrs_loop]. rewrite (space_at K _ _ _ _ c H0). cbn [obind]. now rewrite mustgetc_at, (proj2 (eqb_neq _ _) H2f), (proj2 (eqb_neq _ _) H3e), ungetc_at. }
  destruct (run_exists NameAttr (b :: r)) as [(nm & r1 & Hr)|Hr].
  2:{ right. intros [|fuel] acc c Hf; [lia|]. rewrite E0. destruct (name_end K NameAttr _ c Hr) as (s & -> & B). cbn [obind].
      destruct (ignoreStartTag_bad (syntax s "expected attribute name in element") s B) as (s' & -> & B'). cbn [obind]. eauto. }
  destruct nm as [|a nm].
  { assert (Hw : ~ wordy [x3d] b) by (destruct Hr as (E & _ & H); cbn in E; now subst r1).
    destruct (past_exists (b :: r)) as [[rest Hp]|Hp]; [left; eexists _, _; now apply (Attrs_noname _ _ _ b r rest H0)|].
    right. intros [|fuel] acc c Hf; [lia|]. rewrite E0, (name_none K NameAttr b r c Hw). cbn [obind].
    destruct (ignoreStartTag_end K (syntax (at_ K (b :: r) c) "expected attribute name in element") (b :: r) c Hp) as (s & -> & B). cbn [obind]. eauto. }
  assert (Hne : a :: nm <> []) by discriminate. clear E0.
  destruct (skips_exists r1) as (w1 & r2 & H1). destruct r2 as [|b2 r2].
  { right. intros [|fuel] acc c Hf; [lia|]. rewrite (attrs_name _ _ _ _ _ _ _ _ H0 Hs Hr Hne). destruct (space_end K _ _ c H1) as (s & -> & B). cbn [obind].
    destruct (mustgetc_bad s B) as (s' & -> & B'). eauto. }
  destruct (Byte.byte_eq_dec b2 x3d) as [->|H3d].
  2:{ destruct (past_exists r2) as [[rest Hp]|Hp]; [left; eexists _, _; now apply (Attrs_noequal _ w _ (b :: r) (a :: nm) r1 w1 b2 r2 rest)|].
      right. intros [|fuel] acc c Hf; [lia|]. rewrite (attrs_name _ _ _ _ _ _ _ _ H0 Hs Hr Hne). rewrite (space_at K _ _ _ _ c H1). cbn [obind].
      rewrite mustgetc_at, (proj2 (eqb_neq _ _) H3d).
      destruct (ignoreStartTag_end K (syntax (at_ K r2 c) "attribute name without = in element") r2 c Hp) as (s & -> & B). cbn [obind]. eauto. }
  destruct (skips_exists r2) as (w2 & r3 & H2).
  assert (E0 : forall fuel acc c, attrs_loop (S fuel) acc (at_ K raw c) =
      ' (_, s) <- space (at_ K r2 c) ;;
      ' (v, s) <- attrval s ;;
      match v with
      | None => OK ((-1)%Z, acc ++ [(a :: nm, [])], false, s)
      | Some v => attrs_loop fuel (acc ++ [(a :: nm, v)]) s
      end).
  { intros. rewrite (attrs_name _ _ _ _ _ _ _ _ H0 Hs Hr Hne). rewrite (space_at K _ _ _ _ c H1). cbn [obind]. now rewrite mustgetc_at. }
  destruct r3 as [|b3 r3].
  { right. intros [|fuel] acc c Hf; [lia|]. rewrite E0. destruct (space_end K _ _ c H2) as (s & -> & B). cbn [obind].
    unfold attrval. destruct (mustgetc_bad s B) as (s' & -> & B'). cbn [obind]. eauto. }
  destruct (Byte.byte_eq_dec b3 x22) as [->|H22].
  2:{ right. intros [|fuel] acc c Hf; [lia|]. rewrite E0, (space_at K _ _ _ _ c H2). cbn [obind]. unfold attrval. rewrite mustgetc_at, (proj2 (eqb_neq _ _) H22).
      cbn [obind]. eexists _, _, _. split; [reflexivity|]. discriminate. }
  destruct (text_or_fails K true r3) as [(v & r4 & Hv)|Hv].
  2:{ right. intros [|fuel] acc c Hf; [lia|]. rewrite E0, (space_at K _ _ _ _ c H2). cbn [obind]. unfold attrval. rewrite mustgetc_at.
      change (Byte.eqb x22 x22) with true. cbv iota. destruct (Hv c) as (o & s & E & B). change (quote_of true) with (Some x22) in E. rewrite E. cbn [obind].
      destruct o as [v|]; [|eauto]. destruct fuel as [|fuel]; [exfalso|now apply attrs_loop_bad]. cbn [length] in L0. lia. }
  assert (L : length r4 <= n).
  { apply skips_length in H1, H2. destruct Hr as (E & _). apply (f_equal (@length byte)) in E. apply content_length in Hv. rewrite app_length in E. cbn [length] in *. lia. }
  destruct (IH r4 L) as [(x & rest & Hx)|Hx].
  - left. destruct x as [[l f] ws]. eexists _, _. now apply (Attrs_more _ w raw (b :: r) (a :: nm) r1 w1 r2 w2 r3 v r4 l f ws rest).
  - right. intros [|fuel] acc c Hf; [lia|]. rewrite E0, (space_at K _ _ _ _ c H2). cbn [obind]. unfold attrval. rewrite mustgetc_at.
    change (Byte.eqb x22 x22) with true. cbv iota. change (Some x22) with (quote_of true). rewrite (text_at K true _ _ _ c Hv). cbn [obind]. apply Hx.
    apply skips_length in H1, H2. destruct Hr as (E & _). apply (f_equal (@length byte)) in E. apply content_length in Hv. rewrite app_length in E. cbn [length] in *. lia.
Qed.
(** ** Start tags *)
Lemma bang_match raw c : ~ begins (str "!--") raw -> In x3e raw -> forall b i, raw = b :: i ->
  (if Byte.eqb b x21 then match_ (str "--") (at_ K i c) else (false, at_ K i c)) = (false, at_ K i c).
Proof.
  intros H Hi b i ->. destruct (Byte.eqb b x21) eqn:E; [|reflexivity]. apply eqb_eq in E as ->.
  assert (N : ~ begins (str "--") i) by (intros [r ->]; apply H; now exists r).
  unfold match_. destruct (match_from_short K (str "--") [] i c N) as [(s & E & B)|E]; [|exact E].
  exfalso. destruct Hi as [Hi|Hi]; [discriminate|]. revert Hi. apply (prefix_of_mark K (str "--") [] i c s); [|exact N|exact E|exact B].
  cbn. intros HH. repeat (destruct HH as [HH|HH]; [discriminate HH|]). exact HH.
Qed.
Lemma startTag_at raw n l f ws rest c : start_tag input raw (n, l, f, ws) rest ->
  decodeStartTag (at_ K (x3c :: raw) c) = OK (keep_state f, n, l, f_empty f, [], at_ K rest (warned c ws)).
Proof.
  intros H. assert (Hi : In x3e raw) by now apply start_tag_in in H. remember (n, l, f, ws) as x eqn:Ex.
  destruct H as [n' raw r l' f' ws' rest Hn Hne Hs Hb Ha|b r rest Hb Hp]; injection Ex as <- <- <- <-.
  - destruct (run_first _ _ _ _ Hn Hne) as (a & i & E & Hw).
    unfold decodeStartTag. rewrite getc_at. change (Byte.eqb x3c x3c) with true. cbn [negb]. rewrite E, mustgetc_at.
    pose proof (not_slash _ Hs) as H2f. rewrite E in H2f. rewrite H2f, (bang_match raw c Hb Hi a i E), ungetc_at, <- E.
    rewrite (name_at K NameTag n' raw r c Hn Hne). cbn [obind].
    rewrite (attrs_loop_at _ _ _ Ha) by (rewrite fuel_at; lia). reflexivity.
  - unfold decodeStartTag. rewrite getc_at. change (Byte.eqb x3c x3c) with true. cbn [negb]. rewrite mustgetc_at.
    replace (Byte.eqb b x2f) with false by (symmetry; apply eqb_neq; intros ->; apply Hb; repeat split; [cbn..| |]; (discriminate || intros [])).
    replace (Byte.eqb b x21) with false by (symmetry; apply eqb_neq; intros ->; apply Hb; repeat split; [cbn..| |]; (discriminate || intros [])).
    rewrite ungetc_at, (name_none K NameTag b r c Hb). cbn [obind]. rewrite (ignoreStartTag_at K _ _ _ _ Hp). reflexivity.
Qed.
Lemma comment_at raw t rest c : comment raw t rest ->
  decodeStartTag (at_ K (x3c :: raw) c) = OK (2%Z, [], [], false, t_text t, at_ K rest c) /\ t = Tag [] [] [] false true None (t_text t) false [].
Proof.
  intros [body raw' rest' H]. split; [|reflexivity]. unfold decodeStartTag. rewrite getc_at. change (Byte.eqb x3c x3c) with true. cbn [negb].
  change (str "!--" ++ raw') with (x21 :: str "--" ++ raw'). rewrite mustgetc_at. change (Byte.eqb x21 x2f) with false. change (Byte.eqb x21 x21) with true. cbv iota.
  unfold match_. destruct (match_from_at K (str "--") [] (str "--" ++ raw') c) as (r & E & ->); [now exists raw'|]. apply app_inv_head in E. subst r.
  rewrite (comment_loop_at K body raw' rest' H) by (rewrite fuel_at; lia). reflexivity.
Qed.
Definition startTag_name (s : dst) : xm (Z * bytes * list (bytes * bytes) * bool * bytes) :=
  ' (n, s) <- name NameTag s ;;
  match n with
  | None =>
      ' (st, s) <- ignoreStartTag (syntax s "expected element name after <") s ;;
      OK (st, [], [], false, [], s)
  | Some n =>
      ' (st, attrs, empty, s) <- attrs_loop (fuel_of s) [] s ;;
      OK (st, n, attrs, empty, [], s)
  end.
Definition start_fails (raw : bytes) : Prop := forall c, exists n l e t s, decodeStartTag (at_ K (x3c :: raw) c) = OK ((-1)%Z, n, l, e, t, s) /\ bad s.
Lemma start_or_fails raw : (exists t rest, comment raw t rest) \/ (exists n l f ws rest, start_tag input raw (n, l, f, ws) rest) \/ start_fails raw.
Proof.
  destruct (begins_dec (str "!--") raw) as [[r ->]|Hb].
  { destruct (before_exists (str "-->") r) as [(body & rest & H)|H]; [discriminate|left; eexists _, _; now apply (Comment body r rest)|].
    right. right. intros c. unfold decodeStartTag. rewrite getc_at. change (Byte.eqb x3c x3c) with true. cbn [negb].
    change (str "!--" ++ r) with (x21 :: str "--" ++ r). rewrite mustgetc_at. change (Byte.eqb x21 x2f) with false. change (Byte.eqb x21 x21) with true. cbv iota.
    unfold match_. destruct (match_from_at K (str "--") [] (str "--" ++ r) c) as (r' & E & ->); [now exists r|]. apply app_inv_head in E. subst r'.
    destruct (comment_loop_end K r H (fuel_of (at_ K r c)) [] c) as (s & -> & B); [rewrite fuel_at; lia|]. cbn [obind]. eexists _, _, _, _, _. split; [reflexivity|exact B]. }
  right. destruct raw as [|b i].
  { right. intros c. unfold decodeStartTag. rewrite getc_at. change (Byte.eqb x3c x3c) with true. cbn [negb]. destruct (mustgetc_end K c) as (s & -> & B).
    eexists _, _, _, _, _. split; [reflexivity|exact B]. }
  destruct (Byte.byte_eq_dec b x2f) as [->|H2f].
  { right. intros c. unfold decodeStartTag. rewrite getc_at. change (Byte.eqb x3c x3c) with true. cbn [negb]. rewrite mustgetc_at.
    change (Byte.eqb x2f x2f) with true. cbv iota. eexists _, _, _, _, _. split; [reflexivity|discriminate]. }
  assert (E0 : forall c, exists s, (bad s \/ s = at_ K (b :: i) c) /\ decodeStartTag (at_ K (x3c :: b :: i) c) =
     startTag_name s).
  { intros c. unfold decodeStartTag. rewrite getc_at. change (Byte.eqb x3c x3c) with true. cbn [negb]. rewrite mustgetc_at, (proj2 (eqb_neq _ _) H2f).
    destruct (Byte.eqb b x21) eqn:E21; [|eexists; split; [right; apply ungetc_at|reflexivity]]. apply eqb_eq in E21 as ->.
    assert (N : ~ begins (str "--") i) by (intros [r ->]; apply Hb; now exists r).
    unfold match_. destruct (match_from_short K (str "--") [] i c N) as [(s & E & B)|E].
    - rewrite E. exists (ungetc x21 s). split; [left; exact B|reflexivity].
    - rewrite E. eexists; split; [right; apply ungetc_at|reflexivity]. }
  assert (Nb : forall s, bad s -> exists s', name NameTag s = OK (None, s') /\ bad s').
  { intros s B. unfold name, readName. destruct (mustgetc_bad s B) as (s' & -> & B'). cbn [obind]. eauto. }
  assert (F : forall s, bad s -> exists n l e t s', startTag_name s = OK ((-1)%Z, n, l, e, t, s') /\ bad s').
  { intros s B. unfold startTag_name. destruct (Nb s B) as (s1 & -> & B1). cbn [obind].
    destruct (ignoreStartTag_bad (syntax s1 "expected element name after <") s1 B1) as (s2 & -> & B2). cbn [obind].
    eexists _, _, _, _, _. split; [reflexivity|exact B2]. }
  destruct (run_exists NameTag (b :: i)) as [(n & r & Hr)|Hr].
  2:{ right. intros c. destruct (E0 c) as (s & [B| ->] & E); rewrite E; [now apply F|]. unfold startTag_name.
      destruct (name_end K NameTag _ c Hr) as (s1 & -> & B1). cbn [obind].
      destruct (ignoreStartTag_bad (syntax s1 "expected element name after <") s1 B1) as (s2 & -> & B2). cbn [obind].
      eexists _, _, _, _, _. split; [reflexivity|exact B2]. }
  destruct n as [|a n].
  { assert (Hw : ~ wordy [] b) by (destruct Hr as (E & _ & H); cbn in E; now subst r).
    destruct (past_exists (b :: i)) as [[rest Hp]|Hp]; [left; eexists _, _, _, _, _; now apply (Start_noname _ b i rest)|].
    right. intros c. destruct (E0 c) as (s & [B| ->] & E); rewrite E; [now apply F|]. unfold startTag_name. rewrite (name_none K NameTag b i c Hw). cbn [obind].
    destruct (ignoreStartTag_end K (syntax (at_ K (b :: i) c) "expected element name after <") (b :: i) c Hp) as (s & -> & B). cbn [obind].
    eexists _, _, _, _, _. split; [reflexivity|exact B]. }
  destruct (attributes_or_fails (length r) r (le_n _)) as [(x & rest & Hx)|Hx].
  - left. destruct x as [[l f] ws]. exists (a :: n), l, f, ws, rest. apply (Start_tag _ (a :: n) _ r); [exact Hr|discriminate| |exact Hb|exact Hx].
    intros [r' E]. injection E as -> _. congruence.
  - right. intros c. destruct (E0 c) as (s & [B| ->] & E); rewrite E; [now apply F|]. unfold startTag_name. rewrite (name_at K NameTag (a :: n) (b :: i) r c Hr) by discriminate. cbn [obind].
    destruct (Hx (fuel_of (at_ K r c)) [] c) as (l & e & s & -> & B); [rewrite fuel_at; lia|]. cbn [obind]. eexists _, _, _, _, _. split; [reflexivity|exact B].
Qed.
Lemma endTag_at raw n r1 w1 rest c : run [] n raw r1 -> n <> [] -> skips w1 r1 (x3e :: rest) ->
  decodeEndTag (at_ K (x3c :: x2f :: raw) c) = OK (true, n, at_ K rest c).
Proof.
  intros Hn Hne H1. unfold decodeEndTag. rewrite getc_at. change (Byte.eqb x3c x3c) with true. cbn [negb]. rewrite mustgetc_at. change (Byte.eqb x2f x2f) with true. cbn [negb].
  rewrite (name_at K NameTag n raw r1 c Hn Hne). cbn [obind]. rewrite (space_at K _ _ _ _ c H1). cbn [obind]. now rewrite mustgetc_at.
Qed.
Lemma endTag_or_fails raw : (exists n r1 w1 rest, run [] n raw r1 /\ n <> [] /\ skips w1 r1 (x3e :: rest)) \/
  forall c, exists n s, decodeEndTag (at_ K (x3c :: x2f :: raw) c) = OK (false, n, s) /\ bad s.
Proof.
  assert (E0 : forall c, decodeEndTag (at_ K (x3c :: x2f :: raw) c) =
    ' (n, s) <- name NameTag (at_ K raw c) ;;
    match n with
    | None =>
        OK (false, [], match d_err s with None => fail s "expected element name after </" | _ => s end)
    | Some n =>
        ' (_, s) <- space s ;;
        match mustgetc s with
        | (None, s) => OK (false, n, s)
        | (Some b, s) =>
            if Byte.eqb b x3e then OK (true, n, s)
            else OK (false, n, fail s "invalid characters between </ and >")
        end
    end).
  { intros c. unfold decodeEndTag. rewrite getc_at. change (Byte.eqb x3c x3c) with true. cbn [negb]. rewrite mustgetc_at. reflexivity. }
  destruct (run_exists NameTag raw) as [(n & r1 & Hr)|Hr].
  2:{ right. intros c. rewrite E0. destruct (name_end K NameTag raw c Hr) as (s & -> & B). cbn [obind]. eexists _, _. split; [reflexivity|].
      unfold bad in *. destruct (d_err s) eqn:E; [congruence|contradiction]. }
  destruct n as [|a n].
  { right. intros c. rewrite E0. destruct Hr as (E & _ & H). cbn in E. subst r1. destruct raw as [|b raw]; [contradiction|]. rewrite (name_none K NameTag b raw c H). cbn [obind].
    eexists _, _. split; [reflexivity|discriminate]. }
  assert (Hne : a :: n <> []) by discriminate. destruct (skips_exists r1) as (w1 & r2 & H1). destruct r2 as [|b r2].
  { right. intros c. rewrite E0, (name_at K NameTag _ _ _ c Hr Hne). cbn [obind]. destruct (space_end K _ _ c H1) as (s & -> & B). cbn [obind].
    destruct (mustgetc_bad s B) as (s' & -> & B'). eauto. }
  destruct (Byte.byte_eq_dec b x3e) as [->|H3e]; [left; now exists (a :: n), r1, w1, r2|].
  right. intros c. rewrite E0, (name_at K NameTag _ _ _ c Hr Hne). cbn [obind]. rewrite (space_at K _ _ _ _ c H1). cbn [obind].
  rewrite mustgetc_at, (proj2 (eqb_neq _ _) H3e). eexists _, _. split; [reflexivity|discriminate].
Qed.

(** ** Elements *)
Definition inside (fuel : nat) (root : bool) (st : Z) (start : bytes) (attrs : list (bytes * bytes)) (s : dst) : xm (option tag * option xerr) :=
  let s := set_stack s (d_line s :: c_stack (d_ctx s)) in
  ' (_, s) <- space s ;;
  ' (ok, cdata, s) <- decodeCData s ;;
  if negb ok then OK (None, d_err s, s)
  else
    ' (noindent, s) <- content_space root s ;;
    ' (tx, s) <- text None false s ;;
    match tx with
    | None => OK (None, d_err s, s)
    | Some tx =>
        ' (r, e, s) <- kids fuel [] s ;;
        match r with
        | None => OK (None, e, s)
        | Some (tags, endname) =>
            match c_stack (d_ctx s) with
            | [] => Panic
            | _ :: stk =>
                let s := set_stack s stk in
                let content := (match cdata with Some c => nonempty c | None => false end) || nonempty tx || nonempty tags in
                OK (if (st =? 0)%Z then None
                    else Some (Tag start endname attrs false false cdata tx (content && noindent) tags), None, s)
            end
        end
    end.
Lemma decodeTag_inside fuel root s : decodeTag (S fuel) root s =
  match d_err s with
  | Some e => OK (None, Some e, s)
  | None =>
      ' (p, s) <- lead_space root s ;;
      let s := if nonempty p then set_prefix s p else s in
      ' (st, start, attrs, empty, comment, s) <- decodeStartTag s ;;
      if (st <? 0)%Z then OK (None, d_err s, s)
      else if (st =? 2)%Z then OK (Some (Tag [] [] [] false true None comment false []), None, s)
      else
        match (if root then root_check start attrs s else None) with
        | Some e => OK (None, Some e, set_err s (Some e))
        | None =>
            if empty then
              OK (if (st =? 0)%Z then None else Some (Tag start [] attrs true false None [] false []), None, s)
            else inside fuel root st start attrs s
        end
  end.
Proof. reflexivity. Qed.
Definition pushed (raw : bytes) (c : ctx) : ctx := Ctx (c_end c) ((K - Z.of_nat (newlines raw))%Z :: c_stack c) (c_prefix c) (c_indent c) (c_warn c).
Definition with_stack (c : ctx) (l : list Z) : ctx := Ctx (c_end c) l (c_prefix c) (c_indent c) (c_warn c).
Definition stated_tag (f : fate) (o : tag) : option tag := if f_keep f then Some o else None.
Lemma inside_at fuel root f start attrs r1 c w1 r2 cd r3 r4 tx r5 ni c2 ts en c3 l stk rest :
  skips w1 r1 r2 -> section r2 cd r3 -> In x3e r2 ->
  content_space root (at_ K r3 (pushed r1 c)) = OK (ni, at_ K r4 c2) -> content false r4 tx r5 ->
  kids fuel [] (at_ K r5 c2) = OK (Some (ts, en), None, at_ K rest c3) -> c_stack c3 = l :: stk ->
  inside fuel root (keep_state f) start attrs (at_ K r1 c) =
  OK (stated_tag f (Tag start en attrs false false cd tx (((match cd with Some c => nonempty c | None => false end) || nonempty tx || nonempty ts) && ni) ts),
      None, at_ K rest (with_stack c3 stk)).
Proof.
  intros H1 Hcd Hi Hsp Htx Hk Hst. unfold inside. cbv zeta.
  change (set_stack (at_ K r1 c) (d_line (at_ K r1 c) :: c_stack (d_ctx (at_ K r1 c)))) with (at_ K r1 (pushed r1 c)).
  destruct r2 as [|b r2]; [destruct Hi|]. rewrite (space_at K _ _ _ _ _ H1). cbn [obind].
  rewrite (section_at K _ _ _ _ Hcd Hi). cbn [obind negb]. rewrite Hsp. cbn [obind].
  change (@None byte) with (quote_of false). rewrite (text_at K false _ _ _ c2 Htx). cbn [obind]. rewrite Hk. cbn [obind].
  change (c_stack (d_ctx (at_ K rest c3))) with (c_stack c3). rewrite Hst. unfold stated_tag, keep_state. now destruct (f_keep f).
Qed.
Definition indented (c : ctx) : bool := nonempty (c_prefix c) || nonempty (c_indent c).
Lemma content_space_at w r3 b r4 c : skips w r3 (b :: r4) -> content_space false (at_ K r3 c) = OK (indented c && negb (nonempty w), at_ K (b :: r4) c).
Proof.
  intros H. unfold content_space. change (nonempty (c_prefix (d_ctx (at_ K r3 c))) || nonempty (c_indent (d_ctx (at_ K r3 c)))) with (indented c).
  destruct (indented c).
  - rewrite (readSpace_at K _ _ _ _ c H). reflexivity.
  - rewrite (space_at K _ _ _ _ c H). reflexivity.
Qed.
Lemma nonempty_iff {A} (l : list A) : nonempty l = true <-> l <> [].
Proof. destruct l; split; cbn; congruence. Qed.
Lemma tight_bool ind w cd tx ts ni : tight ind w cd tx ts ni ->
  ((match cd with Some c => nonempty c | None => false end) || nonempty tx || nonempty ts) && (ind && negb (nonempty w)) = ni.
Proof.
  intros H. apply eq_true_iff_eq. unfold tight, filled in H. rewrite H. rewrite !andb_true_iff, !orb_true_iff, negb_true_iff, !nonempty_iff.
  assert (W : nonempty w = false <-> w = []) by (destruct w; cbn; split; congruence). rewrite W.
  assert (C : (match cd with Some c => nonempty c | None => false end) = true <-> cd <> None /\ cd <> Some []).
  { destruct cd as [[|x y]|]; cbn; split; try congruence; try tauto. intros _. split; discriminate. }
  rewrite C. clear. tauto.
Qed.
Definition element_reads (ind : bool) (raw : bytes) (x : option tag * list xerr) (rest : bytes) : Prop :=
  S (length rest) <= length raw /\
  forall fuel c, indented c = ind -> 2 * length (x3c :: raw) + 2 <= fuel ->
    decodeTag fuel false (at_ K (x3c :: raw) c) = OK (fst x, None, at_ K rest (warned c (snd x))).
Definition elements_read (ind : bool) (raw : bytes) (x : list tag * bytes * list xerr) (rest : bytes) : Prop :=
  S (length rest) <= length raw /\
  forall fuel acc c, indented c = ind -> 2 * length raw + 3 <= fuel ->
    kids fuel acc (at_ K raw c) = OK (Some (acc ++ fst (fst x), snd (fst x)), None, at_ K rest (warned c (snd x))).
Lemma nonroot_start fuel raw f n l ws r1 c : start_tag input raw (n, l, f, ws) r1 ->
  decodeTag (S fuel) false (at_ K (x3c :: raw) c) =
  if f_empty f then OK (stated_tag f (Tag n [] l true false None [] false []), None, at_ K r1 (warned c ws))
  else inside fuel false (keep_state f) n l (at_ K r1 (warned c ws)).
Proof.
  intros H. rewrite decodeTag_inside. change (d_err (at_ K (x3c :: raw) c)) with (@None xerr). cbn [lead_space obind nonempty].
  rewrite (startTag_at _ _ _ _ _ _ c H). cbn [obind]. unfold stated_tag, keep_state. destruct (f_keep f); reflexivity.
Qed.
Lemma element_elements ind :
  (forall raw x rest, element input ind raw x rest -> element_reads ind raw x rest) /\
  (forall raw x rest, elements input ind raw x rest -> elements_read ind raw x rest).
Proof.
  apply (element_both input ind (fun raw x rest _ => element_reads ind raw x rest) (fun raw x rest _ => elements_read ind raw x rest)).
    - intros raw t rest H. destruct (comment_in _ _ _ H) as (_ & _ & L). split; [exact L|]. intros [|fuel] c Hc Hf; [cbn in Hf; lia|].
      rewrite decodeTag_inside. change (d_err (at_ K (x3c :: raw) c)) with (@None xerr). cbn [lead_space obind nonempty].
      destruct (comment_at _ _ _ c H) as [-> Et]. cbn [obind Z.ltb Z.eqb Z.compare Pos.eqb fst snd]. rewrite warned_nil. now rewrite <- Et.
    - intros raw n l k ws rest H. destruct (start_tag_in _ _ _ H) as (_ & _ & L). split; [exact L|]. intros [|fuel] c Hc Hf; [cbn in Hf; lia|].
      rewrite (nonroot_start _ _ _ _ _ _ _ _ H). cbn [f_empty fst snd stated_tag f_keep]. now destruct k.
    - intros raw n l k ws r1 w1 r2 cd r3 w2 r4 tx r5 ts en ws' rest ni Hs H1 Hcd H2 Htx Hk [Lk IH] Ht.
      destruct (start_tag_in _ _ _ Hs) as (_ & _ & Ls). pose proof (skips_length _ _ _ H1). pose proof (section_length _ _ _ Hcd).
      pose proof (skips_length _ _ _ H2). pose proof (content_length _ _ _ _ Htx). split; [lia|]. intros [|fuel] c Hc Hf; [cbn in Hf; lia|].
      rewrite (nonroot_start _ _ _ _ _ _ _ _ Hs). cbn [f_empty fst snd].
      assert (S2 : suffix r5 r2).
      { eapply suffix_trans; [exact (content_suffix _ _ _ _ Htx)|]. eapply suffix_trans; [exact (skips_suffix _ _ _ H2)|]. exact (section_suffix _ _ _ Hcd). }
      destruct r4 as [|b r4]; [inversion Htx|].
      rewrite (inside_at fuel false (Fate k false) n l r1 (warned c ws) w1 r2 cd r3 (b :: r4) tx r5 (ind && negb (nonempty w2))
        (pushed r1 (warned c ws)) ts en (warned (pushed r1 (warned c ws)) ws') (K - Z.of_nat (newlines r1))%Z (c_stack c) rest H1 Hcd
        (suffix_in _ _ _ S2 (elements_in _ _ _ _ Hk))).
      + rewrite (tight_bool _ _ _ _ _ _ Ht). unfold stated_tag. cbn [f_keep]. unfold with_stack, warned, pushed. cbn. now rewrite app_assoc.
      + rewrite <- Hc. exact (content_space_at w2 r3 b r4 (pushed r1 (warned c ws)) H2).
      + exact Htx.
      + rewrite (IH fuel [] (pushed r1 (warned c ws))); [reflexivity|exact Hc|]. cbn [length] in Hf. lia.
      + reflexivity.
    - intros w raw n r1 w1 r0 rest H0 Hn Hne H1. pose proof (skips_length _ _ _ H0). pose proof (skips_length _ _ _ H1).
      assert (L : length r0 = length n + length r1) by (destruct Hn as (-> & _); apply app_length). cbn [length] in *. split; [lia|].
      intros [|fuel] acc c Hc Hf; [lia|]. cbn [kids]. rewrite (space_at K _ _ _ _ c H0). cbn [obind]. rewrite getc_at. change (Byte.eqb x3c x3c) with true. cbn [negb].
      rewrite mustgetc_at. change (Byte.eqb x2f x2f) with true. cbv iota. rewrite !ungetc_at, (endTag_at _ _ _ _ _ c Hn Hne H1). cbn [obind fst snd].
      now rewrite warned_nil, app_nil_r.
    - intros w raw r0 o ws r1 ts en ws' rest H0 Hs He [Le IHe] Hk [Lk IHk]. pose proof (skips_length _ _ _ H0). cbn [length] in *. split; [lia|].
      intros [|fuel] acc c Hc Hf; [lia|]. cbn [kids]. rewrite (space_at K _ _ _ _ c H0). cbn [obind]. rewrite getc_at. change (Byte.eqb x3c x3c) with true. cbn [negb].
      destruct r0 as [|b r0]; [cbn in Le; lia|]. rewrite mustgetc_at, (not_slash _ Hs), !ungetc_at.
      rewrite (IHe fuel c Hc); [|lia]. cbn [obind fst snd].
      rewrite (IHk fuel _ (warned c ws)); [|exact Hc|lia]. cbn [fst snd]. rewrite warned_warned. destruct o; rewrite <- ?app_assoc; reflexivity.
Qed.

(** ** What is not an element fails *)
Definition tag_fails (ind : bool) (raw : bytes) : Prop := forall fuel c, indented c = ind -> 2 * length (x3c :: raw) + 2 <= fuel ->
  exists o e s, decodeTag fuel false (at_ K (x3c :: raw) c) = OK (o, Some e, s).
Definition kids_fail (ind : bool) (raw : bytes) : Prop := forall fuel acc c, indented c = ind -> c_stack c <> [] -> 2 * length raw + 3 <= fuel ->
  exists e s, kids fuel acc (at_ K raw c) = OK (None, Some e, s).
Lemma bad_err s : bad s -> exists e, d_err s = Some e.
Proof. unfold bad. destruct (d_err s); [eauto|congruence]. Qed.
Lemma kids_bad fuel acc s : bad s -> stk s <> [] -> exists e s', kids (S fuel) acc s = OK (None, Some e, s').
Proof.
  intros B Hs. cbn [kids]. rewrite (space_bad s B). cbn [obind]. rewrite (getc_bad s B). unfold tag_error, stk in *.
  destruct (c_stack (d_ctx s)) as [|l t]; [congruence|]. eexists _, _. reflexivity.
Qed.
Lemma cdata_bad s : bad s -> decodeCData s = OK (false, None, s).
Proof. intros B. unfold decodeCData. change (str "<![CDATA[") with (x3c :: str "![CDATA["). cbn [cdata_open]. now rewrite (getc_bad s B). Qed.
Lemma text_bad s : bad s -> text None false s = OK (Some [], s).
Proof. intros B. unfold text, fuel_of. cbn [text_loop]. now rewrite (getc_bad s B). Qed.
Definition detected (w : bytes) (c : ctx) : ctx :=
  match after_newline w with
  | None => c
  | Some l =>
      match drop_prefix (c_prefix c) l with
      | None => Ctx (c_end c) (c_stack c) [] (c_indent c) (c_warn c)
      | Some rest => Ctx (c_end c) (c_stack c) (c_prefix c) rest (c_warn c)
      end
  end.
Definition ctx_after (root : bool) (w : bytes) (c : ctx) : ctx := if root then detected w c else c.
Lemma content_space_gen root w r3 b r4 c : skips w r3 (b :: r4) ->
  content_space root (at_ K r3 c) = OK (negb root && (indented c && negb (nonempty w)), at_ K (b :: r4) (ctx_after root w c)).
Proof.
  intros H. destruct root; [|now apply content_space_at]. unfold content_space, detect_indent. rewrite (readSpace_at K _ _ _ _ c H). cbn [obind].
  change (c_prefix (d_ctx (at_ K (b :: r4) c))) with (c_prefix c). cbn [negb andb ctx_after]. unfold detected.
  destruct (after_newline w) as [l|]; [|reflexivity]. destruct (drop_prefix (c_prefix c) l); reflexivity.
Qed.
Lemma ctx_after_stack root w c : c_stack (ctx_after root w c) = c_stack c.
Proof. destruct root; [|reflexivity]. cbn [ctx_after]. unfold detected. destruct (after_newline w); [|reflexivity]. destruct (drop_prefix _ _); reflexivity. Qed.
Lemma content_space_end root w r3 c : skips w r3 [] -> exists ni s, content_space root (at_ K r3 c) = OK (ni, s) /\ bad s /\ stk s = c_stack c.
Proof.
  intros H. destruct (readSpace_end K _ _ c H) as (s & E & B). destruct (space_end K _ _ c H) as (s' & E' & B').
  destruct (readSpace_ran (at_ K r3 c)) as (a & s2 & E2 & [_ L] & _). rewrite E2 in E. injection E as -> ->.
  destruct (space_ran (at_ K r3 c)) as ([] & s3 & E3 & [_ L'] & _). rewrite E3 in E'. injection E' as ->.
  unfold content_space. destruct root.
  - unfold detect_indent. rewrite E2. cbn [obind]. destruct (after_newline w) as [l|]; [|eexists _, _; split; [reflexivity|now split]].
    destruct (drop_prefix _ _); eexists _, _; (split; [reflexivity|]); (split; [exact B|exact L]).
  - destruct (_ || _); [rewrite E2|rewrite E3]; cbn [obind]; eexists _, _; (split; [reflexivity|]); split; assumption.
Qed.
Lemma inside_or_fails root r1 (under : bytes -> bool) :
  (forall ind r5, length r5 <= length r1 -> (exists x rest, elements input ind r5 x rest) \/ kids_fail ind r5) ->
  (exists w1 r2 cd r3 w2 r4 tx r5 x rest, skips w1 r1 r2 /\ section r2 cd r3 /\ skips w2 r3 r4 /\ content false r4 tx r5 /\
     elements input (under w2) r5 x rest) \/
  (forall fuel st start attrs c, (forall w, indented (ctx_after root w c) = under w) -> 2 * length r1 + 3 <= fuel ->
     exists e s, inside fuel root st start attrs (at_ K r1 c) = OK (None, Some e, s)).
Proof.
  intros Hk. destruct (skips_exists r1) as (w1 & r2 & H1). pose proof (skips_length _ _ _ H1) as L1.
  destruct r2 as [|b2 r2].
  { right. intros fuel st start attrs c _ _. destruct (space_end K _ _ (pushed r1 c) H1) as (s & E & B). unfold inside. cbv zeta.
    change (set_stack (at_ K r1 c) (d_line (at_ K r1 c) :: c_stack (d_ctx (at_ K r1 c)))) with (at_ K r1 (pushed r1 c)). rewrite E. cbn [obind].
    rewrite (cdata_bad s B). cbn [obind negb]. destruct (bad_err s B) as [e ->]. eauto. }
  assert (E0 : forall fuel st start attrs c, inside fuel root st start attrs (at_ K r1 c) =
    ' (ok, cdata, s) <- decodeCData (at_ K (b2 :: r2) (pushed r1 c)) ;;
    if negb ok then OK (None, d_err s, s)
    else
      ' (noindent, s) <- content_space root s ;;
      ' (tx, s) <- text None false s ;;
      match tx with
      | None => OK (None, d_err s, s)
      | Some tx =>
          ' (r, e, s) <- kids fuel [] s ;;
          match r with
          | None => OK (None, e, s)
          | Some (tags, endname) =>
              match c_stack (d_ctx s) with
              | [] => Panic
              | _ :: stk =>
                  let s := set_stack s stk in
                  let content := (match cdata with Some c => nonempty c | None => false end) || nonempty tx || nonempty tags in
                  OK (if (st =? 0)%Z then None
                      else Some (Tag start endname attrs false false cdata tx (content && noindent) tags), None, s)
              end
          end
      end).
  { intros. unfold inside. cbv zeta.
    change (set_stack (at_ K r1 c) (d_line (at_ K r1 c) :: c_stack (d_ctx (at_ K r1 c)))) with (at_ K r1 (pushed r1 c)).
    rewrite (space_at K _ _ _ _ _ H1). reflexivity. }
  destruct (section_or_fails K (b2 :: r2)) as [(cd & r3 & Hcd)|Hcd].
  2:{ right. intros fuel st start attrs c _ _. rewrite E0. destruct (Hcd (pushed r1 c)) as (s & -> & B). cbn [obind negb]. destruct (bad_err s B) as [e ->]. eauto. }
  assert (Ecd : forall c1, (exists s, decodeCData (at_ K (b2 :: r2) c1) = OK (false, None, s) /\ bad s) \/
                decodeCData (at_ K (b2 :: r2) c1) = OK (true, cd, at_ K r3 c1)).
  { intros c1. destruct (in_dec Byte.byte_eq_dec x3e (b2 :: r2)) as [Hi|Hi]; [right; now apply section_at|].
    revert Hi. destruct Hcd as [raw H|raw body v rest [-> _] _].
    - intros Hi. unfold decodeCData. rewrite cdata_open_match by now right. fold cdata_mark.
      destruct (match_from_short K cdata_mark [] raw c1 H) as [(s & -> & B)|E].
      + left. destruct (bad_err s B) as [e Ee]. rewrite Ee. exists s. now split.
      + right. rewrite E. reflexivity.
    - intros Hi. elim Hi. apply in_or_app. right. apply in_or_app. right. cbn. tauto. }
  pose proof (section_length _ _ _ Hcd) as L2.
  destruct (skips_exists r3) as (w2 & r4 & H2). pose proof (skips_length _ _ _ H2) as L3. destruct r4 as [|b4 r4].
  { right. intros [|fuel] st start attrs c _ Hf; [lia|]. rewrite E0.
    destruct (Ecd (pushed r1 c)) as [(s & -> & B)| ->]; cbn [obind negb]; [destruct (bad_err s B) as [e ->]; eauto|].
    destruct (content_space_end root _ _ (pushed r1 c) H2) as (ni & s & -> & B & Hs). cbn [obind]. rewrite (text_bad s B). cbn [obind].
    destruct (kids_bad fuel [] s B) as (e & s' & ->); [rewrite Hs; discriminate|]. cbn [obind]. eauto. }
  destruct (text_or_fails K false (b4 :: r4)) as [(tx & r5 & Htx)|Htx].
  2:{ right. intros [|fuel] st start attrs c _ Hf; [lia|]. rewrite E0.
      destruct (Ecd (pushed r1 c)) as [(s & -> & B)| ->]; cbn [obind negb]; [destruct (bad_err s B) as [e ->]; eauto|].
      rewrite (content_space_gen root _ _ _ _ _ H2). cbn [obind].
      set (c2 := ctx_after root w2 (pushed r1 c)).
      destruct (Htx c2) as (o & s & E & B). change (quote_of false) with (@None byte) in E.
      destruct (text_ran None false (at_ K (b4 :: r4) c2)) as (a & s2 & E2 & [_ Ls] & _). rewrite E2 in E. injection E as -> ->.
      rewrite E2. cbn [obind]. destruct o as [tx|]; [|destruct (bad_err s B) as [e ->]; eauto].
      destruct (kids_bad fuel [] s B) as (e & s' & ->); [rewrite Ls; unfold stk; cbn [d_ctx at_]; unfold c2; rewrite ctx_after_stack; discriminate|]. cbn [obind]. eauto. }
  pose proof (content_length _ _ _ _ Htx) as L4.
  destruct (Hk (under w2) r5) as [(x & rest & Hx)|Hx]; [cbn [length] in *; lia|left|right].
  - exists w1, (b2 :: r2), cd, r3, w2, (b4 :: r4), tx, r5, x, rest. repeat (split; [assumption|]). assumption.
  - intros fuel st start attrs c Hu Hf. rewrite E0.
    destruct (Ecd (pushed r1 c)) as [(s & -> & B)| ->]; cbn [obind negb]; [destruct (bad_err s B) as [e ->]; eauto|].
    rewrite (content_space_gen root _ _ _ _ _ H2). cbn [obind].
    change (@None byte) with (quote_of false). rewrite (text_at K false _ _ _ _ Htx). cbn [obind].
    destruct (Hx fuel [] (ctx_after root w2 (pushed r1 c))) as (e & s & ->).
    + rewrite <- Hu. destruct root; [|reflexivity]. cbn [ctx_after]. unfold detected. destruct (after_newline w2) as [l|]; [|reflexivity].
      change (c_prefix (pushed r1 c)) with (c_prefix c). destruct (drop_prefix (c_prefix c) l); reflexivity.
    + rewrite ctx_after_stack. discriminate.
    + cbn [length] in *. lia.
    + cbn [obind]. eauto.
Qed.
Lemma tight_exists ind w cd tx ts : exists ni, tight ind w cd tx ts ni.
Proof.
  exists (((match cd with Some c => nonempty c | None => false end) || nonempty tx || nonempty ts) && (ind && negb (nonempty w))).
  unfold tight, filled. rewrite !andb_true_iff, !orb_true_iff, negb_true_iff, !nonempty_iff.
  assert (W : nonempty w = false <-> w = []) by (destruct w; cbn; split; congruence). rewrite W.
  assert (C : (match cd with Some c => nonempty c | None => false end) = true <-> cd <> None /\ cd <> Some []).
  { destruct cd as [[|x y]|]; cbn; split; try congruence; try tauto. intros _. split; discriminate. }
  rewrite C. clear. tauto.
Qed.
Lemma element_or_fails : forall n,
  (forall ind raw, length raw <= n -> (exists x rest, element input ind raw x rest) \/ tag_fails ind raw) /\
  (forall ind raw, length raw <= n -> (exists x rest, elements input ind raw x rest) \/ kids_fail ind raw).
Proof.
  induction n as [n IH] using lt_wf_ind.
  assert (T : forall ind raw, length raw <= n -> (exists x rest, element input ind raw x rest) \/ tag_fails ind raw).
  { intros ind raw Hn. destruct (start_or_fails raw) as [(t & rest & H)|[(nm & l & f & ws & r1 & H)|H]].
    - left. eexists _, _. apply (El_comment _ _ _ _ _ H).
    - destruct (start_tag_in _ _ _ H) as (_ & _ & L). destruct f as [k [|]]; [left; eexists _, _; apply (El_empty _ _ _ _ _ _ _ _ H)|].
      destruct (inside_or_fails false r1 (fun _ => ind)) as [(w1 & r2 & cd & r3 & w2 & r4 & tx & r5 & [[ts en] ws'] & rest & H1 & Hcd & H2 & Htx & Hx)|F].
      + intros ind' r5 L5. apply (IH (length r5)); lia.
      + left. destruct (tight_exists ind w2 cd tx ts) as [ni Hni]. eexists _, _.
        apply (El_full input ind raw nm l k ws r1 w1 r2 cd r3 w2 r4 tx r5 ts en ws' rest ni); assumption.
      + right. intros [|fuel] c Hc Hf; [cbn in Hf; lia|]. rewrite (nonroot_start _ _ _ _ _ _ _ _ H). cbn [f_empty].
        cbn [length] in Hf. destruct (F fuel (keep_state (Fate k false)) nm l (warned c ws)) as (e & s & ->); [intros w; exact Hc|lia|]. eauto.
    - right. intros [|fuel] c Hc Hf; [cbn in Hf; lia|]. rewrite decodeTag_inside. change (d_err (at_ K (x3c :: raw) c)) with (@None xerr). cbn [lead_space obind nonempty].
      destruct (H c) as (n' & l & e & t & s & -> & B). cbn [obind Z.ltb Z.compare]. destruct (bad_err s B) as [er ->]. eauto. }
  split; [exact T|]. intros ind raw Hn.
  destruct (skips_exists raw) as (w & r0 & H0). pose proof (skips_length _ _ _ H0) as L0. destruct r0 as [|b r0].
  { right. intros [|fuel] acc c Hc Hs Hf; [lia|]. cbn [kids]. destruct (space_end K _ _ c H0) as (s & E & B).
    destruct (space_ran (at_ K raw c)) as ([] & s3 & E3 & [_ L'] & _). rewrite E3 in E. injection E as ->.
    destruct (kids_bad fuel acc s B) as (e & s' & Ek); [rewrite L'; exact Hs|]. cbn [kids] in Ek. rewrite (space_bad s B) in Ek. rewrite E3. eauto. }
  assert (E0 : forall fuel acc c, kids (S fuel) acc (at_ K raw c) =
     if negb (Byte.eqb b x3c) then let s := fail (at_ K r0 c) "expected tag" in OK (None, d_err s, s)
     else
       match mustgetc (at_ K r0 c) with
       | (None, s) => OK (None, d_err s, s)
       | (Some b, s) =>
           if Byte.eqb b x2f then
             ' (ok, n, s) <- decodeEndTag (ungetc x3c (ungetc x2f s)) ;;
             if ok then OK (Some (acc, n), None, s) else OK (None, d_err s, s)
           else
             ' (sub, e, s) <- decodeTag fuel false (ungetc x3c (ungetc b s)) ;;
             match e with
             | Some e => OK (None, Some e, s)
             | None => kids fuel (match sub with Some t => acc ++ [t] | None => acc end) s
             end
       end).
  { intros. cbn [kids]. rewrite (space_at K _ _ _ _ c H0). cbn [obind]. now rewrite getc_at. }
  destruct (Byte.byte_eq_dec b x3c) as [->|H3c].
  2:{ right. intros [|fuel] acc c Hc Hs Hf; [lia|]. rewrite E0, (proj2 (eqb_neq _ _) H3c). cbn [negb]. eexists _, _. reflexivity. }
  change (Byte.eqb x3c x3c) with true in E0. cbn [negb] in E0.
  destruct r0 as [|b0 r0].
  { right. intros [|fuel] acc c Hc Hs Hf; [lia|]. rewrite E0. destruct (mustgetc_end K c) as (s & -> & B). destruct (bad_err s B) as [e ->]. eauto. }
  destruct (Byte.byte_eq_dec b0 x2f) as [->|H2f].
  { destruct (endTag_or_fails r0) as [(nm & r1 & w1 & rest & Hr & Hne & H1)|F].
    - left. eexists _, _. apply (Els_end input ind w raw nm r1 w1 r0 rest H0 Hr Hne H1).
    - right. intros [|fuel] acc c Hc Hs Hf; [lia|]. rewrite E0, mustgetc_at. change (Byte.eqb x2f x2f) with true. cbv iota. rewrite !ungetc_at.
      destruct (F c) as (n' & s & -> & B). cbn [obind]. destruct (bad_err s B) as [e ->]. eauto. }
  assert (Hs2 : ~ begins [x2f] (b0 :: r0)) by (intros [r E]; injection E as -> _; congruence). cbn [length] in L0.
  destruct (T ind (b0 :: r0)) as [(x & r1 & Hx)|F]; [cbn [length]; lia| |].
  2:{ right. intros [|fuel] acc c Hc Hs Hf; [lia|]. rewrite E0, mustgetc_at, (proj2 (eqb_neq _ _) H2f), !ungetc_at.
      destruct (F fuel c Hc) as (o & e & s & ->); [cbn [length]; lia|]. cbn [obind]. eauto. }
  destruct (proj1 (element_elements ind) _ _ _ Hx) as [L1 R1]. cbn [length] in L1. destruct x as [o ws].
  destruct (proj2 (IH (length r1) ltac:(lia)) ind r1 (le_n _)) as [([[ts en] ws'] & rest & Hk)|F].
  - left. eexists _, _. apply (Els_more input ind w raw (b0 :: r0) o ws r1 ts en ws' rest H0 Hs2 Hx Hk).
  - right. intros [|fuel] acc c Hc Hs Hf; [lia|]. rewrite E0, mustgetc_at, (proj2 (eqb_neq _ _) H2f), !ungetc_at.
    rewrite (R1 fuel c Hc) by (cbn [length]; lia). cbn [obind fst snd]. apply F; [exact Hc|exact Hs|lia].
Qed.

(** ** The document *)
Lemma first_attr_iff l n v : attr_value l n = Some v <-> first_attr l n v.
Proof.
  unfold first_attr. induction l as [|[m u] l IH]; cbn [attr_value].
  - split; [discriminate|]. intros (p & s & E & _). destruct p; discriminate E.
  - destruct (bytes_eqb m n) eqn:E.
    + apply bytes_eqb_eq in E as ->. split.
      * intros [= ->]. exists [], l. split; [reflexivity|intros []].
      * intros (p & s & Ep & Hp). destruct p as [|[m' u'] p]; injection Ep as E1 E2; [now subst|]. subst. elim Hp. now left.
    + apply bytes_eqb_neq in E. rewrite IH. split.
      * intros (p & s & -> & Hp). exists ((m, u) :: p), s. split; [reflexivity|]. cbn. intros [<-|H]; [now apply E|now apply Hp].
      * intros (p & s & Ep & Hp). destruct p as [|[m' u'] p]; injection Ep as E1 E2 E3; [now subst|]. exists p, s. split; [exact E3|]. intros H. apply Hp. now right.
Qed.
Lemma ParseUint10_val ds n : ParseUint 10 32 ds = PVal n -> ds <> [] /\ numeral 10 0 ds n.
Proof.
  unfold ParseUint. destruct ds as [|b ds]; [discriminate|]. intros H. split; [discriminate|]. revert H.
  generalize 0%N. generalize (b :: ds). clear. intros l0. induction l0 as [|b l IH]; intros a H.
  - injection H as <-. constructor.
  - cbn [uint_loop] in H. destruct (digit b) as [d|] eqn:Ed; [|discriminate H]. destruct (N.leb_spec 10 d); [discriminate H|].
    destruct (_ <? _)%N; [discriminate H|]. apply (Num_digit _ _ b d); [|now apply IH]. apply (digit_iff false). now split.
Qed.
Lemma ParseUint_range bits s n : ParseUint 10 bits s = PRange n -> n = (2 ^ bits - 1)%N.
Proof.
  unfold ParseUint. destruct s as [|b l]; [discriminate|]. generalize 0%N. generalize (b :: l). generalize (2 ^ bits - 1)%N. clear.
  intros mx l0. induction l0 as [|b l IH]; intros a H; [discriminate H|]. cbn [uint_loop] in H. destruct (digit b); [|discriminate H].
  destruct (_ <=? _)%N; [discriminate H|]. destruct (_ <? _)%N; [now injection H|exact (IH _ H)].
Qed.
Lemma ParseInt_version v : (exists n, ParseInt 32 v = PVal n /\ (4 <= n)%Z) <-> version_ok v.
Proof.
  unfold version_ok. split.
  - intros (z & H & Hz). unfold ParseInt in H. destruct v as [|c r]; [discriminate H|].
    assert (D : exists n, z = Z.of_N n /\ (n < 2 ^ 31)%N /\ Byte.eqb c x2d = false /\ ParseUint 10 32 (if Byte.eqb c x2b then r else c :: r) = PVal n).
    { destruct (Byte.eqb c x2d) eqn:E2d.
      - exfalso. rewrite orb_true_r in H. destruct (ParseUint 10 32 r) as [n|n|]; cbn [negb andb] in H; [| |discriminate H];
          (destruct (_ <? n)%N; [discriminate H|]); injection H as <-; lia.
      - rewrite orb_false_r in H. cbn [negb andb] in H. destruct (ParseUint 10 32 _) as [n|n|] eqn:EP; [| |discriminate H].
        + destruct (N.leb_spec (2 ^ (32 - 1)) n); [discriminate H|]. injection H as <-. exists n. now repeat split.
        + exfalso. assert (Hn : n = (2 ^ 32 - 1)%N).
          { exact (ParseUint_range _ _ _ EP). }
          subst n. discriminate H. }
    destruct D as (n & -> & Hn & _ & HP). apply ParseUint10_val in HP as [Hne HP].
    exists (if Byte.eqb c x2b then r else c :: r), n. repeat split; [|exact Hne|exact HP|lia|exact Hn].
    destruct (Byte.eqb c x2b) eqn:E; [right; apply eqb_eq in E as ->; reflexivity|now left].
  - intros (ds & n & Hv & Hne & Hn & Hr1 & Hr2). exists (Z.of_N n). split; [|lia].
    pose proof (ParseUint_numeral false 32 ds n Hne Hn) as HP. change (base_of false) with 10%N in HP.
    assert (L : (n <=? 2 ^ 32 - 1)%N = true) by (apply N.leb_le; change (2 ^ 32 - 1)%N with 4294967295%N; change (2 ^ 31)%N with 2147483648%N in Hr2; lia). rewrite L in HP.
    assert (F : forall c r, ds = c :: r -> Byte.eqb c x2d = false /\ Byte.eqb c x2b = false).
    { intros c r ->. inversion Hn as [|? ? d ? ? Hd _]; subst. destruct Hd as [Hd [[H1 H2]|[H1 _]]]; [|lia].
      split; apply eqb_neq; intros ->; revert H2; [change (b2N x2d) with 45%N|change (b2N x2b) with 43%N]; lia. }
    assert (C : (2 ^ (32 - 1) <=? n)%N = false) by (apply N.leb_gt; exact Hr2).
    destruct Hv as [->| ->].
    + destruct ds as [|c r]; [congruence|]. destruct (F c r eq_refl) as [F1 F2]. unfold ParseInt. rewrite F1, F2. cbn [orb]. rewrite HP. cbn [negb andb]. now rewrite C.
    + unfold ParseInt. change (Byte.eqb x2b x2b) with true. change (Byte.eqb x2b x2d) with false. cbn [orb]. rewrite HP. cbn [negb andb]. now rewrite C.
Qed.
Lemma root_check_iff n l s : root_check n l s = None <-> root_ok n l.
Proof.
  unfold root_check, root_ok. destruct (bytes_eqb n (str "roblox")) eqn:E; cbn [negb].
  2:{ apply bytes_eqb_neq in E. split; [discriminate|]. intros [-> _]. congruence. }
  apply bytes_eqb_eq in E. split.
  - intros H. split; [exact E|]. destruct (attr_value l (str "version")) as [v|] eqn:Ev; [|discriminate H]. exists v. split; [now apply first_attr_iff|].
    apply ParseInt_version. destruct (ParseInt 32 v) as [z| |]; [|discriminate H..]. destruct (Z.ltb_spec z 4); [discriminate H|]. eauto.
  - intros (_ & v & Hv & Hok). apply first_attr_iff in Hv. rewrite Hv. apply ParseInt_version in Hok as (z & -> & Hz).
    destruct (Z.ltb_spec z 4); [lia|reflexivity].
Qed.
Lemma after_newline_some w l : after_newline w = Some l <-> after_line w l.
Proof.
  unfold after_line. induction w as [|b w IH]; cbn [after_newline].
  - split; [discriminate|]. intros (u & E & _). destruct u; discriminate E.
  - destruct (Byte.eqb b x0a) eqn:E.
    + apply eqb_eq in E as ->. split.
      * intros [= ->]. exists []. split; [reflexivity|intros []].
      * intros (u & Eu & Hu). destruct u as [|a u]; [now injection Eu as ->|]. injection Eu as <- _. elim Hu. now left.
    + apply eqb_neq in E. rewrite IH. split.
      * intros (u & -> & Hu). exists (b :: u). split; [reflexivity|]. intros [->|H]; [now apply E|now apply Hu].
      * intros (u & Eu & Hu). destruct u as [|a u]; [injection Eu as -> _; congruence|]. injection Eu as -> ->. exists u. split; [reflexivity|]. intros H. apply Hu. now right.
Qed.
Lemma after_newline_none w : after_newline w = None <-> ~ In x0a w.
Proof.
  induction w as [|b w IH]; cbn [after_newline]; [split; [intros _ []|reflexivity]|]. destruct (Byte.eqb b x0a) eqn:E.
  - apply eqb_eq in E as ->. split; [discriminate|]. intros H. elim H. now left.
  - apply eqb_neq in E. rewrite IH. split; [intros H [->|H']; [now apply E|now apply H]|intros H H'; apply H; now right].
Qed.
Lemma drop_prefix_some p : forall l i, drop_prefix p l = Some i <-> l = p ++ i.
Proof.
  induction p as [|a p IH]; intros l i; cbn [drop_prefix app]; [split; congruence|]. destruct l as [|b l]; [split; discriminate|].
  destruct (Byte.eqb a b) eqn:E.
  - apply eqb_eq in E as ->. rewrite IH. split; congruence.
  - apply eqb_neq in E. split; [discriminate|]. intros [= -> _]. congruence.
Qed.
Lemma drop_prefix_none p l : drop_prefix p l = None <-> ~ begins p l.
Proof.
  destruct (drop_prefix p l) as [i|] eqn:E.
  - apply drop_prefix_some in E. split; [discriminate|]. intros H. elim H. now exists i.
  - split; [|reflexivity]. intros _ [r Er]. apply drop_prefix_some in Er. congruence.
Qed.
Lemma layout_detected p w p' i' c : c_prefix c = p -> c_indent c = [] -> layout p w (p', i') ->
  detected w c = Ctx (c_end c) (c_stack c) p' i' (c_warn c).
Proof.
  intros Hp Hi H. unfold detected. rewrite Hp. remember (p', i') as y eqn:Ey. destruct H as [w H|w i H|w l H N]; injection Ey as <- <-.
  - rewrite (proj2 (after_newline_none w) H). destruct c; cbn in *; now subst.
  - rewrite (proj2 (after_newline_some _ _) H). now rewrite (proj2 (drop_prefix_some _ _ _) eq_refl).
  - rewrite (proj2 (after_newline_some _ _) H), (proj2 (drop_prefix_none _ _) N). now rewrite Hi.
Qed.
Lemma layout_exists p w : exists p' i', layout p w (p', i').
Proof.
  destruct (after_newline w) as [l|] eqn:E.
  - apply after_newline_some in E. destruct (begins_dec p l) as [[i ->]|N]; [exists p, i; now apply Layout_indent|exists [], []; now apply (Layout_other _ _ l)].
  - apply after_newline_none in E. exists p, []. now apply Layout_line.
Qed.

Section End_.
Variable end_ : xerr.
Definition c_of (p i : bytes) (ws : list xerr) : ctx := Ctx end_ [] p i ws.
Lemma start_state : Dst input None 1 (Ctx end_ [] [] [] []) = at_ K input (c_of [] [] []).
Proof. unfold at_, c_of, K, K_of. f_equal. lia. Qed.
Lemma root_lead fuel p r0 : skips p input (x3c :: r0) -> decodeTag (S fuel) true (at_ K input (c_of [] [] [])) =
  ' (st, start, attrs, empty, comment, s) <- decodeStartTag (at_ K (x3c :: r0) (c_of p [] [])) ;;
  if (st <? 0)%Z then OK (None, d_err s, s)
  else if (st =? 2)%Z then OK (Some (Tag [] [] [] false true None comment false []), None, s)
  else
    match root_check start attrs s with
    | Some e => OK (None, Some e, set_err s (Some e))
    | None =>
        if empty then
          OK (if (st =? 0)%Z then None else Some (Tag start [] attrs true false None [] false []), None, s)
        else inside fuel true st start attrs s
    end.
Proof.
  intros H. rewrite decodeTag_inside. change (d_err (at_ K input (c_of [] [] []))) with (@None xerr). unfold lead_space.
  rewrite (readSpace_at K _ _ _ _ _ H). cbn [obind]. destruct p; reflexivity.
Qed.
Definition doc_reads (d : doc) : Prop := exists c, decodeTag (2 * length input + 4) true (at_ K input (c_of [] [] [])) = OK (doc_root d, None, at_ K (doc_suffix d) c) /\
  c_prefix c = doc_prefix d /\ c_indent c = doc_indent d /\ c_warn c = doc_warn d /\ doc_exclude d = false.
Lemma fuel_root : exists fuel, 2 * length input + 4 = S fuel /\ 2 * length input + 3 <= fuel.
Proof. exists (2 * length input + 3). lia. Qed.
Lemma keep_state_ok f : (keep_state f <? 0)%Z = false /\ (keep_state f =? 2)%Z = false /\ (keep_state f =? 0)%Z = negb (f_keep f).
Proof. unfold keep_state. destruct (f_keep f); now repeat split. Qed.
Lemma document_reads d : document input d -> doc_reads d.
Proof.
  destruct fuel_root as (fuel & Ef & Hf). unfold doc_reads. rewrite Ef.
  intros H. destruct H as [p r0 t rest H0 Hc|p r0 n l k ws rest H0 Hs Hr|p r0 n l k ws r1 w1 r2 cd r3 w2 r4 p' i' tx r5 ts en ws' rest H0 Hs Hr H1 Hcd H2 Hl Htx Hk].
  - exists (c_of p [] []). split; [|now repeat split]. rewrite (root_lead _ _ _ H0).
    destruct (comment_at _ _ _ (c_of p [] []) Hc) as [-> Et]. cbn [obind Z.ltb Z.eqb Z.compare Pos.eqb doc_root doc_suffix]. now rewrite <- Et.
  - exists (c_of p [] ws). split; [|now repeat split]. rewrite (root_lead _ _ _ H0), (startTag_at _ _ _ _ _ _ (c_of p [] []) Hs). cbn [obind].
    destruct (keep_state_ok (Fate k true)) as (-> & -> & ->). rewrite (proj2 (root_check_iff n l _) Hr). cbn [f_empty f_keep doc_root doc_suffix]. now destruct k.
  - set (c1 := warned (c_of p [] []) ws). exists (Ctx end_ [] p' i' (ws ++ ws')). split; [|now repeat split].
    rewrite (root_lead _ _ _ H0), (startTag_at _ _ _ _ _ _ (c_of p [] []) Hs). cbn [obind].
    destruct (keep_state_ok (Fate k false)) as (-> & -> & _). rewrite (proj2 (root_check_iff n l _) Hr). cbn [f_empty].
    assert (S2 : suffix r5 r2).
    { eapply suffix_trans; [exact (content_suffix _ _ _ _ Htx)|]. eapply suffix_trans; [exact (skips_suffix _ _ _ H2)|]. exact (section_suffix _ _ _ Hcd). }
    destruct r4 as [|b r4]; [inversion Htx|].
    assert (Ed : detected w2 (pushed r1 c1) = Ctx end_ [(K - Z.of_nat (newlines r1))%Z] p' i' ws).
    { rewrite (layout_detected p w2 p' i'); [reflexivity..|exact Hl]. }
    fold c1.
    rewrite (inside_at fuel true (Fate k false) n l r1 c1 w1 r2 cd r3 (b :: r4) tx r5 false
        (Ctx end_ [(K - Z.of_nat (newlines r1))%Z] p' i' ws) ts en (Ctx end_ [(K - Z.of_nat (newlines r1))%Z] p' i' (ws ++ ws')) (K - Z.of_nat (newlines r1))%Z [] rest H1 Hcd
        (suffix_in _ _ _ S2 (elements_in _ _ _ _ Hk))).
    + rewrite andb_false_r. unfold stated_tag. cbn [f_keep doc_root doc_suffix]. reflexivity.
    + rewrite (content_space_gen true _ _ _ _ _ H2). cbn [negb andb ctx_after]. now rewrite Ed.
    + exact Htx.
    + destruct (proj2 (element_elements _) _ _ _ Hk) as [_ R].
      rewrite (R fuel [] (Ctx end_ [(K - Z.of_nat (newlines r1))%Z] p' i' ws)); [reflexivity| |].
      * unfold indented. cbn [c_prefix c_indent]. destruct p'; [now destruct i'|reflexivity].
      * destruct (start_tag_in _ _ _ Hs) as (_ & _ & Ls). pose proof (skips_length _ _ _ H0). pose proof (skips_length _ _ _ H1). pose proof (section_length _ _ _ Hcd).
        pose proof (skips_length _ _ _ H2). pose proof (content_length _ _ _ _ Htx). cbn [length] in *. lia.
    + reflexivity.
Qed.
Lemma document_or_fails : (exists d, document input d) \/ exists o e s, decodeTag (2 * length input + 4) true (at_ K input (c_of [] [] [])) = OK (o, Some e, s).
Proof.
  destruct fuel_root as (fuel & Ef & Hf). rewrite Ef.
  destruct (skips_exists input) as (p & r & H0). destruct r as [|b r0].
  { right. rewrite decodeTag_inside. change (d_err (at_ K input (c_of [] [] []))) with (@None xerr). unfold lead_space.
    destruct (readSpace_end K _ _ (c_of [] [] []) H0) as (s & -> & B). cbn [obind].
    assert (B' : bad (if nonempty p then set_prefix s p else s)) by (destruct p; exact B).
    unfold decodeStartTag. rewrite (getc_bad _ B'). cbn [obind Z.ltb Z.compare]. destruct (bad_err _ B') as [e ->]. eauto. }
  destruct (Byte.byte_eq_dec b x3c) as [->|H3c].
  2:{ right. rewrite decodeTag_inside. change (d_err (at_ K input (c_of [] [] []))) with (@None xerr). unfold lead_space.
      rewrite (readSpace_at K _ _ _ _ (c_of [] [] []) H0). cbn [obind].
      replace (if nonempty p then set_prefix (at_ K (b :: r0) (c_of [] [] [])) p else at_ K (b :: r0) (c_of [] [] [])) with (at_ K (b :: r0) (c_of p [] [])) by now destruct p.
      unfold decodeStartTag. rewrite getc_at, (proj2 (eqb_neq _ _) H3c). cbn [negb obind]. eexists _, _, _. reflexivity. }
  destruct (start_or_fails r0) as [(t & rest & H)|[(n & l & f & ws & r1 & H)|H]].
  - left. eexists. apply (Doc_comment _ _ _ _ _ H0 H).
  - destruct (root_check n l (at_ K r1 (warned (c_of p [] []) ws))) as [e|] eqn:Er.
    { right. rewrite (root_lead _ _ _ H0), (startTag_at _ _ _ _ _ _ _ H). cbn [obind].
      destruct (keep_state_ok f) as (-> & -> & _). rewrite Er. eauto. }
    apply root_check_iff in Er. destruct f as [k [|]]; [left; eexists; apply (Doc_empty _ _ _ _ _ _ _ _ H0 H Er)|].
    destruct (inside_or_fails true r1 (fun w => indented (detected w (c_of p [] ws)))) as [(w1 & r2 & cd & r3 & w2 & r4 & tx & r5 & [[ts en] ws'] & rest & H1 & Hcd & H2 & Htx & Hx)|F].
    + intros ind r5 _. apply (element_or_fails (length r5)). lia.
    + left. destruct (layout_exists p w2) as (p' & i' & Hl). rewrite (layout_detected p w2 p' i' (c_of p [] ws) eq_refl eq_refl Hl) in Hx. eexists.
      refine (Doc_full input p r0 n l k ws r1 w1 r2 cd r3 w2 r4 p' i' tx r5 ts en ws' rest H0 H Er H1 Hcd H2 Hl Htx _).
      replace (negb _) with (indented (Ctx (c_end (c_of p [] ws)) (c_stack (c_of p [] ws)) p' i' (c_warn (c_of p [] ws)))); [exact Hx|].
      unfold indented. cbn [c_prefix c_indent]. destruct p'; [now destruct i'|reflexivity].
    + right. rewrite (root_lead _ _ _ H0), (startTag_at _ _ _ _ _ _ _ H). cbn [obind].
      destruct (keep_state_ok (Fate k false)) as (-> & -> & _). rewrite (proj2 (root_check_iff n l _) Er). cbn [f_empty].
      destruct (start_tag_in _ _ _ H) as (_ & _ & Ls). pose proof (skips_length _ _ _ H0). cbn [length] in *.
      destruct (F fuel (keep_state (Fate k false)) n l (warned (c_of p [] []) ws)) as (e & s & ->); [reflexivity|lia|eauto].
  - right. rewrite (root_lead _ _ _ H0). destruct (H (c_of p [] [])) as (n & l & e & t & s & -> & B). cbn [obind Z.ltb Z.compare]. destruct (bad_err s B) as [er ->]. eauto.
Qed.
Lemma ReadFrom_grammar d : ReadFrom input end_ = OK d <-> document input d.
Proof.
  assert (R : forall d, document input d -> ReadFrom input end_ = OK d).
  { clear d. intros d H. destruct (document_reads d H) as (c & E & H1 & H2 & H3 & H4). unfold ReadFrom. rewrite start_state, E.
    change (d_err (at_ K (doc_suffix d) c)) with (@None xerr). change (d_in (at_ K (doc_suffix d) c)) with (doc_suffix d). change (d_ctx (at_ K (doc_suffix d) c)) with c.
    rewrite H1, H2, H3. destruct d; cbn in *; now subst. }
  split; [|apply R]. intros H. destruct document_or_fails as [[d' Hd]|(o & e & s & E)].
  - pose proof (R d' Hd) as H'. rewrite H in H'. injection H' as ->. exact Hd.
  - unfold ReadFrom in H. rewrite start_state, E in H. discriminate H.
Qed.
End End_.
End Input.
