(** PropXmlDecode.v - properties of decoding XML: what any document becomes. *)
From Verif Require Import Base RbxlValues RbxValues Tree RbxlCodec RbxlFileProofs SpecValues SpecTree SpecCodec SortProofs TreeProofs RbxlCodecEnc
  XmlText XmlDoc XmlTotal XmlCodec SpecXml SpecXmlDecode XmlTextProofs XmlLayout XmlTreeEnc XmlFloats.
Local Notation string := String.string.

Lemma Forall2_conj_In {A B} (P : A -> B -> Prop) l l' : Forall2 P l l' -> Forall2 (fun a b => P a b /\ In b l') l l'.
Proof.
  intros H. assert (G : forall m, incl l' m -> Forall2 (fun a b => P a b /\ In b m) l l').
  { induction H as [|a b l l' Hab _ IH]; intros m Hm; constructor; [split; [exact Hab|apply Hm; now left]|]. apply IH. intros x Hx. apply Hm. now right. }
  apply G. intros x Hx; exact Hx.
Qed.
(** ** getValue *)
Definition font_want := wants CTag ["Family"]%string ++ wants CWeight ["Weight"]%string ++ wants CStyle ["Style"]%string.
Lemma font_want_find n k : mfind font_want n = Some k -> n = str "Family" /\ k = CTag \/ n = str "Weight" /\ k = CWeight \/ n = str "Style" /\ k = CStyle.
Proof.
  intros E. unfold font_want in E. cbn [wants map app mfind] in E. destruct (beqb_spec (str "Family") n) as [<-|]; [left; split; congruence|]. destruct (beqb_spec (str "Weight") n) as [<-|]; [right; left; split; congruence|].
  destruct (beqb_spec (str "Style") n) as [<-|]; [right; right; split; congruence|discriminate].
Qed.
Lemma seen_dec n l : existsb (bytes_eqb n) l = true <-> In n l.
Proof.
  rewrite existsb_exists. split.
  - intros (x & Hx & E). destruct (beqb_spec n x) as [->|]; [exact Hx|discriminate].
  - intros H. exists n. split; [exact H|]. now destruct (beqb_spec n n).
Qed.
Lemma getFrom_trap fl v : forall tags seen vals, getFrom_loop fl font_want seen vals tags = (true, v) -> vt v "Family" = None ->
  incl seen (map fst font_want) -> NoDup seen -> (In (str "Family") seen -> exists t, mfind vals (str "Family") = Some (VT t)) ->
  ~ In (str "Family") seen /\ ~ In (str "Weight") seen /\
  exists pre w post z, tags = pre ++ w :: post /\ t_start w = str "Weight" /\ ParseInt 16 (getContent w) = PRange z /\
    Forall (fun u => t_start u <> str "Family" /\ t_start u <> str "Weight") pre.
Proof.
  induction tags as [|t tags IH]; intros seen vals H Hv Hi Hn Hf.
  - cbn [getFrom_loop] in H. apply pair_equal_spec in H as [Hl ->]. apply Nat.eqb_eq in Hl. exfalso.
    assert (HI : incl (map fst font_want) seen) by (apply NoDup_length_incl; [exact Hn|rewrite map_length; lia|exact Hi]).
    destruct (Hf (HI _ (or_introl eq_refl))) as [t Ht]. unfold vt in Hv. rewrite Ht in Hv. discriminate.
  - cbn [getFrom_loop] in H. set (n := t_start t) in *.
    assert (Skip : getFrom_loop fl font_want seen vals tags = (true, v) -> (n <> str "Family" \/ In n seen) -> (n <> str "Weight" \/ In n seen) ->
      ~ In (str "Family") seen /\ ~ In (str "Weight") seen /\ exists pre w post z, t :: tags = pre ++ w :: post /\ t_start w = str "Weight" /\ ParseInt 16 (getContent w) = PRange z /\
        Forall (fun u => t_start u <> str "Family" /\ t_start u <> str "Weight") pre).
    { intros HH N1 N2. destruct (IH seen vals HH Hv Hi Hn Hf) as (A & B & pre & w & post & z & E & Ew & Ez & Fp). split; [exact A|]. split; [exact B|].
      exists (t :: pre), w, post, z. split; [now rewrite E|]. split; [exact Ew|]. split; [exact Ez|]. constructor; [|exact Fp]. fold n.
      split; [destruct N1 as [N1|N1]; [exact N1|]|destruct N2 as [N2|N2]; [exact N2|]]; intros E1; now rewrite E1 in *. }
    destruct (mfind font_want n) as [k|] eqn:Ek.
    2:{ apply Skip; [exact H|left|left]; intros E; rewrite E in Ek; discriminate. }
    destruct (existsb (bytes_eqb n) seen) eqn:Es.
    { apply seen_dec in Es. apply Skip; [exact H|now right|now right]. }
    assert (Hnot : ~ In n seen) by (intros E; apply seen_dec in E; congruence).
    assert (Hin : In n (map fst font_want)) by (apply mfind_key; eauto).
    assert (Hi' : incl (n :: seen) (map fst font_want)) by (intros x [<-|Hx]; [exact Hin|now apply Hi]).
    assert (Hn' : NoDup (n :: seen)) by now constructor.
    destruct (font_want_find n k Ek) as [[En ->]|[[En ->]|[En ->]]].
    + exfalso. rewrite En in *. apply IH in H; try assumption; [|intros _; exists t; reflexivity]. destruct H as [H _]. apply H. now left.
    + destruct (ParseInt 16 (getContent t)) as [z|z|] eqn:Ez; [| |discriminate H].
      * exfalso. rewrite En in *. apply IH in H; try assumption.
        -- destruct H as (_ & H & _). apply H. now left.
        -- intros [E|E]; [discriminate E|]. destruct (Hf E) as [u Hu]. exists u. exact Hu.
      * apply pair_equal_spec in H as [_ Ev].
        assert (HF : ~ In (str "Family") seen).
        { intros E. destruct (Hf E) as [u Hu]. rewrite En in Ev. unfold vt in Hv. rewrite <- Ev in Hv. cbn [mfind] in Hv.
          destruct (beqb_spec (str "Weight") (str "Family")) as [E'|_]; [discriminate E'|]. rewrite Hu in Hv. discriminate. }
        split; [exact HF|]. split; [now rewrite <- En|]. exists [], t, tags, z. split; [reflexivity|]. split; [exact En|]. split; [exact Ez|constructor].
    + destruct (FontStyleFromString _); [|discriminate H].
      apply IH in H; try assumption.
      * destruct H as (A & B & pre & w & post & z & E & Ew & Ez & Fp). split; [intros C; apply A; now right|]. split; [intros C; apply B; now right|].
        exists (t :: pre), w, post, z. split; [now rewrite E|]. split; [exact Ew|]. split; [exact Ez|]. constructor; [|exact Fp]. fold n. rewrite En. split; discriminate.
      * intros [E|E]; [rewrite En in E; discriminate E|]. destruct (Hf E) as [u Hu]. exists u. rewrite En. exact Hu.
Qed.
Section Values.
Variables (env : xenv) (discard : bool).
Ltac leaf_ok := match goal with
  | |- context [if ?c then _ else _] => destruct c
  | |- context [match ?c with _ => _ end] => destruct c
  end.
Lemma getValue_total t typ : (exists v w, getValue env discard t typ = OK (v, w) /\ (forall q, v = Some (RReference q) -> q = 0)) \/
  (getValue env discard t typ = Panic /\ typ = TypeFont /\ exists pre w post z, t_tags t = pre ++ w :: post /\ t_start w = str "Weight" /\ ParseInt 16 (getContent w) = PRange z /\
    Forall (fun u => t_start u <> str "Family" /\ t_start u <> str "Weight") pre).
Proof.
  unfold getValue. cbv zeta.
  repeat match goal with
  | |- context [if (typ =? ?c)%N then ?x else _] =>
      lazymatch c with
      | TypeFont => fail
      | _ => destruct (typ =? c)%N; [left|]
      end
  end.
  all: try (repeat match goal with |- context [let '(_, _) := ?c in _] => destruct c end;
     repeat match goal with |- exists v w, OK (?a, ?b) = OK (v, w) /\ _ => exists a, b; split; [reflexivity|] | |- context [if nonempty ?c then _ else _] => destruct (nonempty c) end;
     unfold get_int, invalid, option_map; intros q Hq;
     repeat match type of Hq with context [match ?c with _ => _ end] => destruct c; try discriminate Hq end;
     try discriminate Hq; congruence).
  destruct (N.eqb_spec typ TypeFont) as [Et|_]; [|left; eexists _, _; split; [reflexivity|]; intros q Hq; discriminate Hq].
  fold font_want. destruct (getFrom (xe_fl env) font_want t) as [ok v] eqn:Eg.
  assert (Hinv : forall q, invalid discard (RFont [] 0 x00 []) = Some (RReference q) -> q = 0) by (unfold invalid; intros q Hq; destruct discard; discriminate Hq).
  destruct ok; cbn [negb]; [|left; eexists _, _; split; [reflexivity|exact Hinv]].
  destruct (vt v "Family") as [fam|] eqn:Ef.
  - left. destruct (get_content discard fam) as [[f|] w]; [|eexists _, _; split; [reflexivity|exact Hinv]].
    destruct (getFrom (xe_fl env) (wants CTag ["CachedFaceId"%string]) t) as [ok v2].
    destruct (if ok then vt v2 "CachedFaceId" else None) as [cf|]; [|eexists _, _; split; [reflexivity|intros q Hq; discriminate Hq]].
    destruct (get_content discard cf) as [[cid|] w2]; eexists _, _; (split; [reflexivity|]); [intros q Hq; discriminate Hq|exact Hinv].
  - right. split; [reflexivity|]. split; [exact Et|]. unfold getFrom in Eg.
    destruct (getFrom_trap _ v (t_tags t) [] [] Eg Ef) as (_ & _ & H); [intros x []|constructor|intros []|exact H].
Qed.
End Values.

Lemma assocB_font n : assocB canon_types n = Some TypeFont -> n = str "font".
Proof.
  intros H. assert (G : forall l, assocB l n = Some TypeFont -> exists m, In (m, TypeFont) l /\ n = str m).
  { induction l as [|[m a] l IH]; [discriminate|]. cbn [assocB]. destruct (beqb_spec (str m) n) as [<-|].
    - intros E. exists m. split; [left; now rewrite (Some_eq _ _ E)|reflexivity].
    - intros E. destruct (IH E) as (m' & Hm & En). exists m'. split; [now right|exact En]. }
  destruct (G _ H) as (m & Hm & ->). unfold canon_types in Hm. cbn [In] in Hm.
  repeat (destruct Hm as [Hm|Hm]; [first [injection Hm as <-; reflexivity|discriminate Hm]|]). destruct Hm.
Qed.

Section Tree.
Variables (env : xenv) (discard : bool).
Notation pend s := (rd_props s ++ rd_strs s).
Notation len s := (length (rd_heap s)).
Definition pend_new (p : ptr) (t : tag) (s s' : rdst) : Prop :=
  rd_heap s' = rd_heap s /\ rd_look s' = rd_look s /\
  (forall e, In e (pend s') -> In e (pend s) \/ (pr_inst e = p /\ named t (pr_prop e))).
Lemma getProperty_ok t p s : (exists r s', getProperty env discard t p s = OK (r, s') /\ pend_new p t s s' /\
    (forall n v, r = Some (n, v) -> named t n /\ forall q, v = RReference q -> q = 0)) \/
  (getProperty env discard t p s = Panic /\ font_trap t).
Proof.
  unfold getProperty. destruct (attr_value (t_attr t) (str "name")) as [name|] eqn:En.
  2:{ left. eexists _, _. split; [reflexivity|]. split; [split; [reflexivity|]; split; [reflexivity|]; intros e He; now left|]. intros n v Hn; discriminate Hn. }
  destruct (GetCanonType (t_start t)) as [typ optional] eqn:Ec.
  set (sub := if optional then getOptional env t typ else Some (Some t)).
  assert (Hs0 : pend_new p t s s) by (split; [reflexivity|]; split; [reflexivity|]; intros e He; now left).
  destruct sub as [[t'|]|] eqn:Es.
  3:{ left. eexists _, _. split; [reflexivity|]. split; [exact Hs0|]. intros n v Hn; discriminate Hn. }
  2:{ left. eexists _, _. split; [reflexivity|]. split; [exact Hs0|]. intros n v Hn. apply Some_eq, pair_equal_spec in Hn as [<- <-]. split; [exact En|]. intros q Hq; discriminate Hq. }
  destruct (getValue_total env discard t' typ) as [(v & w & -> & Hv)|(-> & Et & Htrap)].
  - left. cbn [obind]. assert (Hs1 : pend_new p t s (rd_warns s w)) by exact Hs0. destruct v as [v|]; [|eexists _, _; split; [reflexivity|]; split; [exact Hs1|]; intros n v Hn; discriminate Hn].
    assert (Hpl : forall u, (forall q, u = RReference q -> q = 0) -> forall n v0, Some (name, (if optional then mkSome u else u)) = Some (n, v0) -> named t n /\ forall q, v0 = RReference q -> q = 0).
    { intros u Hu n v0 Hn. apply Some_eq, pair_equal_spec in Hn as [<- <-]. split; [exact En|]. intros q Hq. destruct optional; [discriminate Hq|now apply Hu]. }
    assert (Hq0 : forall q, v = RReference q -> q = 0) by (intros q Hq; apply Hv; now rewrite Hq).
    destruct v; try (eexists _, _; split; [reflexivity|]; split; [exact Hs1|]; exact (Hpl _ Hq0)).
    + destruct (IsEmptyReference (getContent t')); [eexists _, _; split; [reflexivity|]; split; [exact Hs1|]; exact (Hpl _ Hq0)|].
      eexists _, _. split; [reflexivity|]. split; [|intros n v Hn; discriminate Hn]. split; [reflexivity|]. split; [reflexivity|].
      intros e He. cbn [rd_props rd_strs rd_warns] in He. rewrite !in_app_iff in *. destruct He as [[He|He]|He]; [left; now left| |left; now right].
      destruct He as [<-|[]]. right. split; [reflexivity|exact En].
    + eexists _, _. split; [reflexivity|]. split; [|intros n v Hn; discriminate Hn]. split; [reflexivity|]. split; [reflexivity|].
      intros e He. cbn [rd_props rd_strs rd_warns] in He. rewrite !in_app_iff in *. destruct He as [He|[He|He]]; [left; now left|left; now right|].
      destruct He as [<-|[]]. right. split; [reflexivity|exact En].
  - right. cbn [obind]. split; [reflexivity|]. unfold sub in Es. destruct optional.
    + unfold getOptional in Es. destruct (t_tags t); [discriminate Es|]. rewrite Et in Es. discriminate Es.
    + apply Some_eq, Some_eq in Es. subst t'. split; [|exact Htrap]. unfold GetCanonType in Ec. destruct (drop_prefix (str "optional") (map lower (t_start t))) as [r|]; [apply pair_equal_spec in Ec as [_ Ec]; discriminate Ec|].
      apply pair_equal_spec in Ec as [Ec _]. destruct (assocB canon_types (map lower (t_start t))) as [ty|] eqn:Ea; [|rewrite Et in Ec; discriminate Ec].
      rewrite Ec, Et in Ea. now apply assocB_font.
Qed.
Definition prop_names (pts : list tag) (l l' : list (bytes * rvalue)) : Prop :=
  forall n v, In (n, v) l' -> In (n, v) l \/ ((exists pt, In pt pts /\ named pt n) /\ forall q, v = RReference q -> q = 0).
Lemma In_mset {A} (m : list (bytes * A)) k a n v : In (n, v) (mset m k a) -> In (n, v) m \/ (n = k /\ v = a).
Proof.
  induction m as [|[k' a'] m IH]; cbn [mset]; [intros [E|[]]; right; now apply pair_equal_spec in E as [<- <-]|].
  destruct (bytes_eqb k' k); intros [E|E].
  - right. now apply pair_equal_spec in E as [<- <-].
  - left. now right.
  - left. now left.
  - destruct (IH E); [left; now right|now right].
Qed.
Lemma get_props_ok p tags : forall props s, (exists props' s', get_props env discard p tags props s = OK (props', s') /\
    rd_heap s' = rd_heap s /\ rd_look s' = rd_look s /\
    (forall e, In e (pend s') -> In e (pend s) \/ (pr_inst e = p /\ exists pt, In pt tags /\ named pt (pr_prop e))) /\ prop_names tags props props') \/
  (get_props env discard p tags props s = Panic /\ exists t, In t tags /\ font_trap t).
Proof.
  induction tags as [|t tags IH]; intros props s; cbn [get_props].
  - left. eexists _, _. split; [reflexivity|]. split; [reflexivity|]. split; [reflexivity|]. split; [intros e He; now left|intros n v H; now left].
  - destruct (getProperty_ok t p s) as [(r & s1 & -> & (H1 & H2 & H3) & Hr)|[-> Ht]]; cbn [obind]; [|right; split; [reflexivity|]; exists t; split; [now left|exact Ht]].
    destruct (IH (match r with Some (n, v) => mset props n v | None => props end) s1) as [(props' & s' & -> & A & B & C & D)|[-> (u & Hu & Ht)]]; [left|right; split; [reflexivity|]; exists u; split; [now right|exact Ht]].
    eexists _, _. split; [reflexivity|]. split; [congruence|]. split; [congruence|]. split.
    + intros e He. destruct (C e He) as [He'|(E & pt & Hpt & Hn)]; [|right; split; [exact E|]; exists pt; split; [now right|exact Hn]].
      destruct (H3 e He') as [He''|[E Hn]]; [now left|]. right. split; [exact E|]. exists t. split; [now left|exact Hn].
    + intros n v Hv. destruct (D n v Hv) as [Hv'|[(pt & Hpt & Hn) Hq]]; [|right; split; [exists pt; split; [now right|exact Hn]|exact Hq]].
      destruct r as [[n0 v0]|]; [|now left]. destruct (In_mset _ _ _ _ _ Hv') as [Hin|[-> ->]]; [now left|]. right. destruct (Hr n0 v0 eq_refl) as [Hn Hq]. split; [exists t; split; [now left|exact Hn]|exact Hq].
Qed.

(** Instances with what is still to be put into them. *)
Inductive builtP (h : heap) (pd : list propref) : tag -> rtree -> Prop :=
| BuiltP t class i p ts :
    attr_value (t_attr t) (str "class") = Some class -> hget h p = Some i ->
    i_class i = class -> i_ref i = (match attr_value (t_attr t) (str "referent") with Some r => r | None => [] end) ->
    i_service i = false -> i_children i = map rroot ts ->
    (forall name v, In (name, v) (i_props i) -> exists pt, In pt (prop_tags t) /\ named pt name) ->
    (forall e, In e pd -> pr_inst e = p -> exists pt, In pt (prop_tags t) /\ named pt (pr_prop e)) ->
    Forall2 (builtP h pd) (item_tags (t_tags t)) ts ->
    builtP h pd t (RNode p ts).
Lemma builtP_ext h pd h' pd' tr : forall t, builtP h pd t tr -> (forall p, In p (rnodes tr) -> hget h' p = hget h p) ->
  (forall e, In e pd' -> In (pr_inst e) (rnodes tr) -> In e pd) -> builtP h' pd' t tr.
Proof.
  induction tr as [p ts IH] using rtree_ind'. intros t H Hh Hp. inversion H as [? class i ? ? E1 E2 E3 E4 E5 E6 E7 E8 E9]; subst.
  econstructor; try eassumption.
  - rewrite Hh by (rewrite rnodes_node; now left). exact E2.
  - reflexivity.
  - intros e He Ee. apply E8; [|exact Ee]. apply Hp; [exact He|]. rewrite rnodes_node. left. now symmetry.
  - assert (Hh' : forall q, In q (fnodes ts) -> hget h' q = hget h q) by (intros q Hq; apply Hh; rewrite rnodes_node; now right).
    assert (Hp' : forall e, In e pd' -> In (pr_inst e) (fnodes ts) -> In e pd) by (intros e He Hq; apply Hp; [exact He|]; rewrite rnodes_node; now right).
    clear - IH E9 Hh' Hp'. unfold fnodes in *. revert IH Hh' Hp'. induction E9 as [|u tr us trs Hu _ IHl]; intros IH Hh' Hp'; [constructor|].
    inversion IH as [|? ? I1 I2]; subst. cbn [flat_map] in Hh', Hp'. constructor.
    + apply I1; [exact Hu| |]; [intros q Hq; apply Hh'|intros e He Hq; apply Hp'; [exact He|]]; apply in_app_iff; now left.
    + apply IHl; [exact I2| |]; [intros q Hq; apply Hh'|intros e He Hq; apply Hp'; [exact He|]]; apply in_app_iff; now right.
Qed.
Record grow (par : ptr) (pts : list tag) (s s' : rdst) : Prop := Grow {
  g_len : len s <= len s';
  g_old : forall p, p <= len s -> hget (rd_heap s') p = hget (rd_heap s) p;
  g_look : forall r q, mfind (rd_look s') r = Some q -> mfind (rd_look s) r = Some q \/ len s < q <= len s';
  g_pend : forall e, In e (pend s') -> In e (pend s) \/ len s < pr_inst e <= len s' \/ (pr_inst e = par /\ exists pt, In pt pts /\ named pt (pr_prop e));
  g_new : forall p i name q, len s < p -> hget (rd_heap s') p = Some i -> In (name, RReference q) (i_props i) -> q = 0 }.
Lemma grow_refl par pts s : grow par pts s s.
Proof.
  constructor; [lia|reflexivity|intros; now left|intros; now left|].
  intros p i name q Hp Hg _. apply hget_some in Hg. lia.
Qed.
Lemma grow_trans par pts s s1 s2 : grow par pts s s1 -> grow par pts s1 s2 -> grow par pts s s2.
Proof.
  intros [A1 A2 A3 A4 A5] [B1 B2 B3 B4 B5]. constructor.
  - lia.
  - intros p Hp. rewrite B2 by lia. now apply A2.
  - intros r q Hq. destruct (B3 r q Hq) as [H|H]; [|right; lia]. destruct (A3 r q H) as [H'|H']; [now left|right; lia].
  - intros e He. destruct (B4 e He) as [H|[H|H]]; [|right; left; lia|right; right; exact H]. destruct (A4 e H) as [H'|[H'|H']]; [now left|right; left; lia|right; right; exact H'].
  - intros p i name q Hp Hg Hin. destruct (Nat.le_gt_cases p (len s1)) as [L|L]; [rewrite B2 in Hg by exact L; exact (A5 _ _ _ _ Hp Hg Hin)|exact (B5 _ _ _ _ L Hg Hin)].
Qed.
Lemma grow_weak par pts s s' : grow 0 [] s s' -> grow par pts s s'.
Proof. intros [A1 A2 A3 A4 A5]. constructor; try assumption. intros e He. destruct (A4 e He) as [H|[H|(_ & pt & [] & _)]]; [now left|right; now left]. Qed.
Definition ptags (tags : list tag) : list tag := match find (fun t => bytes_eqb (t_start t) (str "Properties")) tags with Some p => t_tags p | None => [] end.
Definition good_item (t : tag) : Prop := forall s, (forall e, In e (pend s) -> pr_inst e <= len s) ->
  (exists r s', get_item env discard t s = OK (r, s') /\ grow 0 [] s s' /\
    match attr_value (t_attr t) (str "class") with
    | None => r = None /\ len s' = len s
    | Some _ => exists tr, r = Some (rroot tr) /\ rnodes tr = seq (S (len s)) (len s' - len s) /\ builtP (rd_heap s') (pend s') t tr
    end) \/
  (get_item env discard t s = Panic /\ exists u, within u t /\ font_trap u).
Definition own (par : ptr) (has : bool) (tags : list tag) : list tag := if has || (par =? 0)%nat then [] else ptags tags.
Lemma items_loop_ok par tags : Forall good_item tags -> forall has props insts s, par <= len s -> (forall e, In e (pend s) -> pr_inst e <= len s) ->
  (exists trs props' s', items_loop env discard (get_item env discard) par tags has props insts s = OK (insts ++ map rroot trs, props', s') /\
    grow par (own par has tags) s s' /\ prop_names (own par has tags) props props' /\
    fnodes trs = seq (S (len s)) (len s' - len s) /\ Forall2 (builtP (rd_heap s') (pend s')) (item_tags tags) trs) \/
  (items_loop env discard (get_item env discard) par tags has props insts s = Panic /\ exists u t, In t tags /\ within u t /\ font_trap u).
Proof.
  induction 1 as [|t tags Ht _ IH]; intros has props insts s Hpar Hpd.
  - left. exists [], props, s. cbn [items_loop map]. rewrite app_nil_r. split; [reflexivity|]. split; [apply grow_refl|]. split; [intros n v H; now left|]. split; [|constructor]. now rewrite Nat.sub_diag.
  - cbn [items_loop item_tags filter]. unfold is_item. destruct (bytes_eqb (t_start t) (str "Item")) eqn:Ei.
    + cbn [andb]. assert (Hown : own par has (t :: tags) = own par has tags).
      { unfold own, ptags. cbn [find]. destruct (beqb_spec (t_start t) (str "Properties")) as [E|_]; [|reflexivity]. rewrite E in Ei. discriminate Ei. }
      rewrite Hown. destruct (Ht s Hpd) as [(r & s1 & -> & G & Hr)|[-> (u & Hu & Hf)]]; cbn [obind].
      2:{ right. split; [reflexivity|]. exists u, t. split; [now left|]. now split. }
      assert (Hpd1 : forall e, In e (pend s1) -> pr_inst e <= len s1).
      { intros e He. destruct (g_pend _ _ _ _ G e He) as [H|[H|(_ & pt & [] & _)]]; [|lia]. pose proof (Hpd e H). pose proof (g_len _ _ _ _ G). lia. }
      destruct (IH has props (match r with Some p => insts ++ [p] | None => insts end) s1) as [(trs & props' & s' & E & G' & P' & F' & B')|[E (u & t' & Hin & Hu & Hf)]]; [pose proof (g_len _ _ _ _ G); lia|exact Hpd1| |].
      2:{ right. split; [exact E|]. exists u, t'. split; [now right|]. now split. }
      left. rewrite E. pose proof (g_len _ _ _ _ G) as L1. pose proof (g_len _ _ _ _ G') as L2.
      assert (GG : grow par (own par has tags) s s') by (apply (grow_trans _ _ _ s1); [now apply grow_weak|exact G']).
      destruct (attr_value (t_attr t) (str "class")) as [class|].
      * destruct Hr as (tr & -> & Hn & Hb). exists (tr :: trs), props', s'. split; [cbn [map]; now rewrite <- app_assoc|]. split; [exact GG|]. split; [exact P'|].
        split; [|constructor; [|exact B']].
        -- unfold fnodes in *. cbn [flat_map]. rewrite Hn, F'. replace (S (len s1)) with (S (len s) + (len s1 - len s)) by lia. rewrite <- seq_app. f_equal. lia.
        -- apply (builtP_ext (rd_heap s1) (pend s1)); [exact Hb| |].
           ++ intros p Hp. rewrite Hn in Hp. apply in_seq in Hp. apply (g_old _ _ _ _ G'). lia.
           ++ intros e He Hp. rewrite Hn in Hp. apply in_seq in Hp. destruct (g_pend _ _ _ _ G' e He) as [H|[H|(H & _)]]; [exact H|lia|lia].
      * destruct Hr as [-> El]. exists trs, props', s'. split; [reflexivity|]. split; [exact GG|]. split; [exact P'|]. split; [|exact B']. now rewrite F', El.
    + cbn [andb]. destruct (bytes_eqb (t_start t) (str "Properties")) eqn:Ep.
      * destruct (has || (par =? 0)%nat) eqn:Eh.
        -- assert (Ho : forall l, own par has l = []) by (intros l; unfold own; now rewrite Eh). 
           destruct (IH has props insts s Hpar Hpd) as [(trs & props' & s' & E & G' & P' & F' & B')|[E (u & t' & Hin & Hu & Hf)]].
           ++ left. exists trs, props', s'. rewrite Ho in *. split; [exact E|]. split; [exact G'|]. split; [exact P'|]. now split.
           ++ right. split; [exact E|]. exists u, t'. split; [now right|]. now split.
        -- assert (Ho : own par has (t :: tags) = t_tags t) by (unfold own, ptags; cbn [find]; now rewrite Eh, Ep). rewrite Ho.
           destruct (get_props_ok par (t_tags t) props s) as [(props1 & s1 & -> & H1 & H2 & H3 & H4)|[-> (u & Hu & Hf)]]; cbn [obind].
           2:{ right. split; [reflexivity|]. exists u, t. split; [now left|]. split; [|exact Hf]. econstructor; [exact Hu|constructor]. }
           assert (G1 : grow par (t_tags t) s s1).
           { constructor; rewrite ?H1, ?H2; [lia|reflexivity|intros; now left| |].
             - intros e He. destruct (H3 e He) as [H|H]; [now left|right; right; exact H].
             - intros p i name q Hp Hg _. apply hget_some in Hg. lia. }
           destruct (IH true props1 insts s1) as [(trs & props' & s' & E & G' & P' & F' & B')|[E (u & t' & Hin & Hu & Hf)]].
           ++ now rewrite H1.
           ++ intros e He. rewrite H1. destruct (H3 e He) as [H|(-> & _)]; [now apply Hpd|exact Hpar].
           ++ left. exists trs, props', s'. split; [exact E|]. change (own par true tags) with (@nil tag) in G', P'. split.
              { apply (grow_trans _ _ _ s1); [exact G1|]. destruct G' as [A1 A2 A3 A4 A5]. constructor; try assumption. intros e He. destruct (A4 e He) as [H|[H|(_ & pt & [] & _)]]; [now left|right; now left]. }
              split; [intros n v Hv; destruct (P' n v Hv) as [H|((pt & [] & _) & _)]; now apply H4|]. split; [now rewrite F', H1|exact B'].
           ++ right. split; [exact E|]. exists u, t'. split; [now right|]. now split.
      * assert (Ho : own par has (t :: tags) = own par has tags) by (unfold own, ptags; cbn [find]; now rewrite Ep). rewrite Ho.
        destruct (IH has props insts s Hpar Hpd) as [(trs & props' & s' & E & G' & P' & F' & B')|[E (u & t' & Hin & Hu & Hf)]].
        -- left. exists trs, props', s'. split; [exact E|]. split; [exact G'|]. split; [exact P'|]. now split.
        -- right. split; [exact E|]. exists u, t'. split; [now right|]. now split.
Qed.
Lemma within_tags u t tags : In t tags -> within u t -> forall a b c d e f g h, within u (Tag a b c d e f g h tags).
Proof. intros Hin Hw a b c d e f g h. now apply (within_sub u t). Qed.
Lemma item_ok t : good_item t.
Proof.
  induction t as [start end_ attr empty comment cdata tx noind tags IH] using tag_ind'. intros s Hpd. cbn [get_item t_attr].
  destruct (attr_value attr (str "class")) as [class|] eqn:Ec.
  2:{ left. eexists _, _. split; [reflexivity|]. split; [|split; reflexivity]. constructor; [cbn; lia|reflexivity|intros; now left|intros; now left|]. intros p i name q Hp Hg _. apply hget_some in Hg. cbn in *. lia. }
  set (ref := match attr_value attr (str "referent") with Some r => r | None => [] end). set (n := len s).
  set (s0 := Rdst (rd_heap s ++ [Inst class ref false [] []]) (if IsEmptyReference ref then rd_look s else mset (rd_look s) ref (S n)) (rd_props s) (rd_strs s) (rd_warn s)).
  assert (L0 : len s0 = S n) by (unfold s0; cbn [rd_heap]; rewrite app_length; cbn; fold n; lia).
  destruct (items_loop_ok (S n) tags IH false [] [] s0) as [(trs & props & s1 & E & G & P & F & B)|[E (u & t & Hin & Hu & Hf)]].
  - lia.
  - intros e He. rewrite L0. unfold s0 in He. cbn [rd_props rd_strs] in He. specialize (Hpd e He). fold n in Hpd. lia.
  - left. rewrite E. cbn [obind app]. set (i := Inst class ref false props (map rroot trs)).
    pose proof (g_len _ _ _ _ G) as L1. rewrite L0 in L1.
    eexists _, _. split; [reflexivity|]. cbn [rd_heap rd_props rd_strs rd_look]. rewrite hset_length.
    assert (Hown : own (S n) false tags = ptags tags) by reflexivity. rewrite Hown in G, P.
    assert (Hget : forall p, p <> S n -> hget (hset (rd_heap s1) (S n) i) p = hget (rd_heap s1) p).
    { intros p Hp. rewrite hget_hset. now apply Nat.eqb_neq in Hp as ->. }
    assert (Hgeti : hget (hset (rd_heap s1) (S n) i) (S n) = Some i).
    { rewrite hget_hset, Nat.eqb_refl. destruct (hget_range (rd_heap s1) (S n)) as [x ->]; [lia|]. reflexivity. }
    assert (Hpi : forall name v, In (name, v) props -> (exists pt, In pt (ptags tags) /\ named pt name) /\ forall q, v = RReference q -> q = 0).
    { intros name v Hv. destruct (P name v Hv) as [[]|H]. exact H. }
    split.
    + constructor; cbn [rd_heap rd_props rd_strs rd_look]; rewrite ?hset_length.
      * fold n. lia.
      * intros p Hp. fold n in Hp. rewrite Hget by lia. rewrite (g_old _ _ _ _ G) by lia. unfold s0. cbn [rd_heap]. apply hget_app. exact Hp.
      * intros r q Hq. fold n. destruct (g_look _ _ _ _ G r q Hq) as [H|H]; [|right; lia]. unfold s0 in H. cbn [rd_look] in H. destruct (IsEmptyReference ref); [now left|].
        rewrite mfind_mset in H. destruct (bytes_eqb ref r); [|now left]. right. apply Some_eq in H. lia.
      * intros e He. fold n. destruct (g_pend _ _ _ _ G e He) as [H|[H|(H & _)]]; [left; exact H|right; left; lia|right; left; lia].
      * intros p x name q Hp Hg Hin. fold n in Hp. destruct (Nat.eq_dec p (S n)) as [->|Hne].
        -- rewrite Hgeti in Hg. apply Some_eq in Hg. subst x. unfold i in Hin. cbn [i_props] in Hin. exact (proj2 (Hpi name _ Hin) q eq_refl).
        -- rewrite Hget in Hg by exact Hne. apply (g_new _ _ _ _ G p x name q); [lia|exact Hg|exact Hin].
    + exists (RNode (S n) trs). split; [reflexivity|]. assert (Hnd : rnodes (RNode (S n) trs) = seq (S n) (len s1 - n)).
      { rewrite rnodes_node, F, L0. replace (len s1 - n) with (S (len s1 - S n)) by lia. reflexivity. }
      split; [exact Hnd|]. apply (BuiltP _ _ _ class i).
      * exact Ec.
      * exact Hgeti.
      * reflexivity.
      * reflexivity.
      * reflexivity.
      * reflexivity.
      * intros name v Hv. exact (proj1 (Hpi name v Hv)).
      * intros e He Ee. destruct (g_pend _ _ _ _ G e He) as [H|[H|(_ & H)]].
        -- exfalso. unfold s0 in H. cbn [rd_props rd_strs] in H. specialize (Hpd e H). fold n in Hpd. lia.
        -- exfalso. lia.
        -- exact H.
      * cbn [t_tags]. eapply Forall2_impl; [|exact (Forall2_conj_In _ _ _ B)]. cbn beta. intros u tr [Hu Hin]. apply (builtP_ext (rd_heap s1) (pend s1)); [exact Hu| |].
        -- intros p Hp. apply Hget. assert (Hf : In p (fnodes trs)) by (apply in_flat_map; exists tr; now split). rewrite F in Hf. apply in_seq in Hf. lia.
        -- intros e He _. exact He.
  - right. rewrite E. cbn [obind]. split; [reflexivity|]. exists u. split; [now apply (within_sub u t)|exact Hf].
Qed.
(** One entry per name. *)
Definition uniq (h : heap) : Prop := forall p i, hget h p = Some i -> NoDup (map fst (i_props i)).
Lemma uniq_set h p i : uniq h -> NoDup (map fst (i_props i)) -> uniq (hset h p i).
Proof.
  intros H Hi q j Hj. rewrite hget_hset in Hj. destruct (q =? p)%nat; [|now apply (H q)]. destruct (hget h p); [|discriminate]. now apply Some_eq in Hj as <-.
Qed.
Lemma uniq_add h i : uniq h -> NoDup (map fst (i_props i)) -> uniq (h ++ [i]).
Proof.
  intros H Hi q j Hj. destruct (Nat.le_gt_cases q (length h)) as [L|L]; [rewrite hget_app in Hj by exact L; now apply (H q)|].
  unfold hget in Hj. destruct q as [|q]; [discriminate|]. rewrite nth_error_app2 in Hj by lia. destruct (q - length h) as [|k]; [now apply Some_eq in Hj as <-|]. destruct k; discriminate.
Qed.
Lemma get_props_uniq p tags : forall props s props' s', get_props env discard p tags props s = OK (props', s') -> NoDup (map fst props) -> NoDup (map fst props').
Proof.
  induction tags as [|t tags IH]; intros props s props' s' E Hn; cbn [get_props] in E; [now apply OK_pair' in E as [<- _]|].
  apply bind_OK in E as ([r s1] & E1 & E). apply (IH _ _ _ _ E). destruct r as [[n v]|]; [now apply mset_keys|exact Hn].
Qed.
Definition uniq_item (t : tag) : Prop := forall s r s', get_item env discard t s = OK (r, s') -> uniq (rd_heap s) -> uniq (rd_heap s').
Lemma items_loop_uniq par tags : Forall uniq_item tags -> forall has props insts s insts' props' s', items_loop env discard (get_item env discard) par tags has props insts s = OK (insts', props', s') ->
  uniq (rd_heap s) -> NoDup (map fst props) -> uniq (rd_heap s') /\ NoDup (map fst props').
Proof.
  induction 1 as [|t tags Ht _ IH]; intros has props insts s insts' props' s' E Hu Hn; cbn [items_loop] in E.
  - apply OK_pair' in E as [E <-]. apply pair_equal_spec in E as [_ <-]. now split.
  - destruct (bytes_eqb (t_start t) (str "Item")).
    { apply bind_OK in E as ([r s1] & E1 & E). apply (IH _ _ _ _ _ _ _ E); [now apply (Ht _ _ _ E1)|exact Hn]. }
    destruct (bytes_eqb (t_start t) (str "Properties")); [|now apply (IH _ _ _ _ _ _ _ E)]. destruct (has || (par =? 0)%nat); [now apply (IH _ _ _ _ _ _ _ E)|].
    apply bind_OK in E as ([props1 s1] & E1 & E). apply (IH _ _ _ _ _ _ _ E); [|now apply (get_props_uniq _ _ _ _ _ _ E1)].
    destruct (get_props_ok par (t_tags t) props s) as [(props2 & s2 & E2 & H1 & _)|[E2 _]]; rewrite E2 in E1; [|discriminate]. apply OK_pair' in E1 as [_ <-]. now rewrite H1.
Qed.
Lemma item_uniq t : uniq_item t.
Proof.
  induction t as [start end_ attr empty comment cdata tx noind tags IH] using tag_ind'. intros s r s' E Hu. cbn [get_item] in E.
  destruct (attr_value attr (str "class")) as [class|]; [|now apply OK_pair' in E as [_ <-]].
  apply bind_OK in E as ([[ch props] s1] & E1 & E). apply OK_pair' in E as [_ <-]. cbn [rd_heap].
  apply (items_loop_uniq _ _ IH) in E1 as [A B]; [now apply uniq_set| |constructor]. cbn [rd_heap]. apply uniq_add; [exact Hu|constructor].
Qed.
(** ** What is put into the instances at the end *)
Record fills (pd : list propref) (n : nat) (h h' : heap) : Prop := Fills {
  fl_len : length h' = length h;
  fl_inst : forall p i, hget h p = Some i -> exists i', hget h' p = Some i' /\ i_class i' = i_class i /\ i_ref i' = i_ref i /\ i_service i' = i_service i /\ i_children i' = i_children i /\
    (NoDup (map fst (i_props i)) -> NoDup (map fst (i_props i'))) /\
    forall name v, In (name, v) (i_props i') -> In (name, v) (i_props i) \/ ((exists e, In e pd /\ pr_inst e = p /\ pr_prop e = name) /\ forall q, v = RReference q -> q <= n) }.
Lemma fills_refl pd n h : fills pd n h h.
Proof. constructor; [reflexivity|]. intros p i Hp. exists i. split; [exact Hp|]. do 4 (split; [reflexivity|]). split; [easy|]. intros name v Hv. now left. Qed.
Lemma fills_trans pd n h h1 h2 : fills pd n h h1 -> fills pd n h1 h2 -> fills pd n h h2.
Proof.
  intros [A1 A2] [B1 B2]. constructor; [congruence|]. intros p i Hp. destruct (A2 p i Hp) as (j & Hj & C1 & C2 & C3 & C4 & C5 & C6). destruct (B2 p j Hj) as (k & Hk & D1 & D2 & D3 & D4 & D5 & D6).
  exists k. split; [exact Hk|]. do 4 (split; [congruence|]). split; [tauto|]. intros name v Hv. destruct (D6 name v Hv) as [H|H]; [now apply C6|now right].
Qed.
Lemma fills_set pd n h e v : In e pd -> (forall q, v = RReference q -> q <= n) -> fills pd n h (set_prop h (pr_inst e) (pr_prop e) v).
Proof.
  intros He Hv. unfold set_prop. destruct (hget h (pr_inst e)) as [x|] eqn:Ex; [|apply fills_refl]. constructor; [apply hset_length|].
  intros p i Hp. rewrite hget_hset. destruct (Nat.eqb_spec p (pr_inst e)) as [E|_].
  - rewrite Ex. rewrite E, Ex in Hp. apply Some_eq in Hp. subst x. eexists. split; [reflexivity|]. do 4 (split; [reflexivity|]). split; [apply mset_keys|]. cbn [set_props i_props].
    intros name u Hu. destruct (In_mset _ _ _ _ _ Hu) as [H|[-> ->]]; [now left|]. right. split; [exists e; now repeat split|exact Hv].
  - exists i. split; [exact Hp|]. do 4 (split; [reflexivity|]). split; [easy|]. intros name u Hu. now left.
Qed.
Lemma fills_shared pd n t h : fills pd n h (shared_tag pd t h).
Proof.
  unfold shared_tag. destruct (bytes_eqb _ _); [|apply fills_refl]. destruct (attr_value _ _) as [hash|]; [|apply fills_refl]. destruct (b64_decode hash) as [key|]; [|apply fills_refl]. destruct (b64_decode (getContent t)) as [value|]; [|apply fills_refl].
  assert (G : forall l h, incl l pd -> fills pd n h (fold_left (fun h e => if bytes_eqb (pr_ref e) key then set_prop h (pr_inst e) (pr_prop e) (RSharedString value) else h) l h)).
  { induction l as [|e l IH]; intros h0 Hl; [apply fills_refl|]. cbn [fold_left]. eapply fills_trans; [|apply IH; intros x Hx; apply Hl; now right].
    destruct (bytes_eqb (pr_ref e) key); [|apply fills_refl]. apply fills_set; [apply Hl; now left|]. intros q Hq; discriminate Hq. }
  apply G. intros x Hx; exact Hx.
Qed.
Lemma fills_root pd n tags : forall md h, fills pd n h (snd (root_tags pd tags md h)).
Proof.
  induction tags as [|t tags IH]; intros md h; cbn [root_tags]; [apply fills_refl|]. destruct (bytes_eqb _ _); [apply IH|]. destruct (bytes_eqb _ _); [|apply IH].
  eapply fills_trans; [|apply IH]. generalize (t_tags t). intros l. revert h. induction l as [|u l IHl]; intros h; [apply fills_refl|]. cbn [fold_left]. eapply fills_trans; [apply fills_shared|apply IHl].
Qed.
Lemma fills_resolve (lk : refmap) n l : (forall r (q : ptr), mfind lk r = Some q -> q <= n) -> forall h, fills l n h (fold_left (fun h e => fst (Resolve (Some lk) h e)) l h).
Proof.
  intros Hlk. assert (G : forall m h, incl m l -> fills l n h (fold_left (fun h e => fst (Resolve (Some lk) h e)) m h)).
  { induction m as [|e m IH]; intros h Hm; [apply fills_refl|]. cbn [fold_left]. eapply fills_trans; [|apply IH; intros x Hx; apply Hm; now right].
    replace (fst (Resolve (Some lk) h e)) with (set_prop h (pr_inst e) (pr_prop e) (RReference (rget lk (pr_ref e)))) by (unfold Resolve, set_prop; now destruct (hget h (pr_inst e))).
    apply fills_set; [apply Hm; now left|]. intros q Hq. assert (E : q = rget lk (pr_ref e)) by congruence. subst q. unfold rget. destruct (mfind lk (pr_ref e)) as [x|] eqn:Ex; [exact (Hlk _ _ Ex)|apply Nat.le_0_l]. }
  intros h. apply G. intros x Hx; exact Hx.
Qed.
Lemma fills_weak pd pd' n h h' : incl pd pd' -> fills pd n h h' -> fills pd' n h h'.
Proof.
  intros Hi [A B]. constructor; [exact A|]. intros p i Hp. destruct (B p i Hp) as (j & Hj & C1 & C2 & C3 & C4 & C5 & C6). exists j. do 6 (split; [assumption|]).
  intros name v Hv. destruct (C6 name v Hv) as [H|((e & He & E) & Hq)]; [now left|right]. split; [exists e; split; [now apply Hi|exact E]|exact Hq].
Qed.
Lemma built_filled h pd n h' tr : fills pd n h h' -> forall t, builtP h pd t tr -> built h' t tr.
Proof.
  intros F. induction tr as [p ts IH] using rtree_ind'. intros t H. inversion H as [? class i ? ? E1 E2 E3 E4 E5 E6 E7 E8 E9]; subst.
  destruct (fl_inst _ _ _ _ F p i E2) as (j & Hj & C1 & C2 & C3 & C4 & _ & C6). apply (Built h' t (i_class i) j); try assumption; try congruence.
  - intros name v Hv. destruct (C6 name v Hv) as [Hi|((e & He & Ee & En) & _)]; [exact (E7 name v Hi)|]. rewrite <- En. exact (E8 e He Ee).
  - clear - IH E9. revert IH. induction E9 as [|u tr us trs Hu _ IHl]; intros IH; [constructor|]. inversion IH as [|? ? I1 I2]; subst. constructor; [now apply I1|now apply IHl].
Qed.
Lemma built_tree h tr : forall t, built h t tr -> tree_at h tr.
Proof.
  induction tr as [p ts IH] using rtree_ind'. intros t H. inversion H as [? class i ? ? E1 E2 E3 E4 E5 E6 E7 E8]; subst. apply (tree_node h p ts i); [exact E2|exact E6|].
  clear - IH E8. revert IH. induction E8 as [|u tr us trs Hu _ IHl]; intros IH; [constructor|]. inversion IH as [|? ? I1 I2]; subst. constructor; [now apply (I1 u)|now apply IHl].
Qed.
(** What decoding a document gives. *)
Lemma codec_read_ok d : (exists r h ws ts, codec_read env discard d = OK (r, h, ws) /\ r_instances r = map rroot ts /\ fnodes ts = seq 1 (length h) /\
    Forall2 (built h) (item_tags (match doc_root d with Some t => t_tags t | None => [] end)) ts /\ forest_at h ts /\ wf_heap h) \/
  (codec_read env discard d = Panic /\ exists u t, doc_root d = Some t /\ within u t /\ font_trap u).
Proof.
  unfold codec_read. destruct (doc_root d) as [t|].
  2:{ left. exists (Root [] []), [], (doc_warn d), []. split; [reflexivity|]. do 2 (split; [reflexivity|]). split; [constructor|]. split; [split; constructor|]. intros p i Hp. apply hget_some in Hp. cbn in Hp. lia. }
  unfold getItems. set (s0 := Rdst [] [] [] [] (doc_warn d)).
  assert (Hall : Forall good_item (t_tags t)) by (apply Forall_forall; intros; apply item_ok).
  assert (Hall' : Forall uniq_item (t_tags t)) by (apply Forall_forall; intros; apply item_uniq).
  destruct (items_loop_ok 0 (t_tags t) Hall false [] [] s0) as [(trs & props & s & E & G & _ & F & B)|[E (u & t' & Hin & Hu & Hf)]]; [cbn; lia|intros e []| |].
  2:{ right. rewrite E. cbn [obind]. split; [reflexivity|]. exists u, t. split; [reflexivity|]. split; [now apply (within_sub u t')|exact Hf]. }
  left. destruct (items_loop_uniq _ _ Hall' _ _ _ _ _ _ _ E) as [U _]; [intros p i Hp; apply hget_some in Hp; cbn in Hp; lia|constructor|].
  rewrite E. cbn [obind app]. destruct (root_tags (rd_strs s) (t_tags t) [] (rd_heap s)) as [md h1] eqn:Er.
  set (h2 := fold_left _ (rd_props s) h1). change (len s0) with 0 in F. rewrite Nat.sub_0_r in F.
  assert (Hlk : forall r q, mfind (rd_look s) r = Some q -> q <= len s) by (intros r q Hq; destruct (g_look _ _ _ _ G r q Hq) as [H|H]; [discriminate H|lia]).
  assert (FF : fills (pend s) (len s) (rd_heap s) h2).
  { apply (fills_trans _ _ _ h1).
    - apply (fills_weak (rd_strs s)); [intros x Hx; apply in_app_iff; now right|]. change h1 with (snd (md, h1)). rewrite <- Er. apply fills_root.
    - apply (fills_weak (rd_props s)); [intros x Hx; apply in_app_iff; now left|]. unfold h2. now apply fills_resolve. }
  eexists _, h2, _, trs. split; [reflexivity|]. split; [reflexivity|]. split; [rewrite (fl_len _ _ _ _ FF); exact F|].
  assert (BB : Forall2 (built h2) (item_tags (t_tags t)) trs) by (eapply Forall2_impl; [|exact B]; cbn beta; intros u tr Hu; exact (built_filled _ _ _ _ tr FF u Hu)).
  split; [exact BB|]. split.
  - split; [|rewrite F; apply seq_NoDup]. clear - BB. induction BB as [|u tr us trs Hu _ IH]; constructor; [now apply (built_tree _ _ u)|exact IH].
  - intros p i Hp. destruct (hget_range (rd_heap s) p) as [j Hj]; [apply hget_some in Hp; rewrite (fl_len _ _ _ _ FF) in Hp; exact Hp|].
    destruct (fl_inst _ _ _ _ FF p j Hj) as (i' & Hi' & _ & _ & _ & _ & C5 & C6). rewrite Hp in Hi'. apply Some_eq in Hi'. subst i'. split; [apply C5; exact (U p j Hj)|].
    intros name x Hx. rewrite (fl_len _ _ _ _ FF). destruct (C6 name _ Hx) as [H|[_ H]]; [|now apply H]. rewrite (g_new _ _ _ _ G p j name x); [lia| |exact Hj|exact H]. apply hget_some in Hj. cbn. lia.
Qed.
End Tree.

(** ** C51: Decode ends, with a tree or an error; a panic has one cause *)
Theorem C51_decode_total : forall env discard input end_,
  (exists r h ws, xml_decode env discard input end_ = OK (r, h, ws)) \/
  (exists e ws, xml_decode env discard input end_ = Err (e, ws)) \/
  (xml_decode env discard input end_ = Panic /\
   exists d t u, ReadFrom input end_ = OK d /\ doc_root d = Some t /\ within u t /\ font_trap u).
Proof.
  intros env discard input end_. unfold xml_decode. destruct (ReadFrom_total input end_) as [[d E]|[[e ws] E]]; rewrite E; [|right; left; eauto].
  destruct (codec_read_ok env discard d) as [(r & h & ws & _ & E' & _)|[E' (u & t & Et & Hw & Hf)]]; rewrite E'; [left; eauto|right; right].
  split; [reflexivity|]. exists d, t, u. split; [reflexivity|]. split; [exact Et|]. now split.
Qed.
(** Documents without Font tags never panic. *)
Theorem C51_no_font_no_panic : forall env discard input end_,
  (forall d t u, ReadFrom input end_ = OK d -> doc_root d = Some t -> within u t -> map lower (t_start u) <> str "font") ->
  xml_decode env discard input end_ <> Panic.
Proof.
  intros env discard input end_ H E. destruct (C51_decode_total env discard input end_) as [(r & h & ws & E')|[(e & ws & E')|(_ & d & t & u & Ed & Et & Hw & [Hf _])]]; [congruence|congruence|].
  exact (H d t u Ed Et Hw Hf).
Qed.
Definition plain_env : xenv := XEnv plain_strconv (fun b => firstn 16 (b ++ repeat x00 16)) (fun _ => 0%N).
Definition font_panic_bytes : bytes :=
  str "<roblox version=""4""><Item class=""TextLabel""><Properties><Font name=""FontFace""><Weight>40000</Weight></Font></Properties></Item></roblox>".
(** The panic happens (codec.go:958), in strict and lax mode. *)
Theorem C51_font_panics : forall discard, xml_decode plain_env discard font_panic_bytes XEOF = Panic.
Proof. intros []; vm_compute; reflexivity. Qed.

(** ** C54: What Decode returns is a tree, the one in the document *)
Theorem C54_decode_forest : forall env discard input end_ r h ws,
  xml_decode env discard input end_ = OK (r, h, ws) ->
  exists d ts, ReadFrom input end_ = OK d /\ r_instances r = map rroot ts /\
    forest_at h ts /\ fnodes ts = seq 1 (length h) /\ wf_heap h /\
    Forall2 (built h) (item_tags (match doc_root d with Some t => t_tags t | None => [] end)) ts.
Proof.
  intros env discard input end_ r h ws E. unfold xml_decode in E. destruct (ReadFrom input end_) as [d|e| |] eqn:Ed; try discriminate E.
  destruct (codec_read_ok env discard d) as [(r' & h' & ws' & ts & E' & H1 & H2 & H3 & H4 & H5)|[E' _]]; rewrite E' in E; [|discriminate E].
  apply OK_pair' in E as [E <-]. apply pair_equal_spec in E as [<- <-]. exists d, ts. split; [reflexivity|]. split; [exact H1|]. split; [exact H4|]. split; [exact H2|]. now split.
Qed.
Definition small_bytes : bytes :=
  str "<roblox version=""4""><Item class=""Part"" referent=""A""><Properties><string name=""s"">x</string><Ref name=""r"">B</Ref></Properties><Item class=""Q"" referent=""B""></Item></Item><Item></Item></roblox>".
Example C54_small : exists r h ws, xml_decode plain_env false small_bytes XEOF = OK (r, h, ws) /\ length h = 2 /\ r_instances r = [1] /\
  hget h 1 = Some (Inst (str "Part") (str "A") false [(str "s", RString (str "x")); (str "r", RReference 2)] [2]) /\ length ws = 1.
Proof. do 3 eexists. split; [vm_compute; reflexivity|]. vm_compute. repeat split. Qed.
