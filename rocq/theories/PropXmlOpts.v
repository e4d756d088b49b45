(** PropXmlOpts.v - properties of decoding XML: which documents are accepted,
    what the options and warnings mean. *)
From Verif Require Import Base RbxlValues RbxValues Tree RbxlCodec RbxlFileProofs SpecValues SpecTree SpecCodec SortProofs TreeProofs RbxlCodecEnc
  XmlText XmlDoc XmlTotal XmlCodec SpecXml SpecXmlDecode XmlTextProofs XmlLayout XmlTreeEnc XmlFloats PropXmlDecode.
Local Notation string := String.string.

(** ** C57: documents that are accepted *)
Definition roblox_root (t : tag) : Prop := t_start t = str "roblox" /\
  exists v n, attr_value (t_attr t) (str "version") = Some v /\ ParseInt 32 v = PVal n /\ (4 <= n)%Z.
Lemma decode_root fuel s t s' : decodeTag fuel true s = OK (Some t, None, s') -> (t_comment t = true /\ t_tags t = []) \/ roblox_root t.
Proof.
  destruct fuel as [|fuel]; [discriminate|]. cbn [decodeTag]. destruct (d_err s); [discriminate|]. intros E.
  apply bind_OK in E as ([p s1] & _ & E). apply bind_OK in E as ([[[[[st start] attrs] empty] comment] s2] & _ & E).
  destruct (st <? 0)%Z; [apply OK_pair' in E as [E _]; discriminate E|]. destruct (st =? 2)%Z; [apply OK_pair' in E as [E _]; apply pair_equal_spec in E as [E _]; apply Some_eq in E; subst t; left; now split|].
  unfold root_check in E. destruct (beqb_spec start (str "roblox")) as [Es|]; cbn [negb] in E; [|apply OK_pair' in E as [E _]; discriminate E].
  destruct (attr_value attrs (str "version")) as [v|] eqn:Ev; [|apply OK_pair' in E as [E _]; discriminate E].
  destruct (ParseInt 32 v) as [n|n|] eqn:En; try (apply OK_pair' in E as [E _]; discriminate E). destruct (Z.ltb_spec n 4) as [L|L]; [apply OK_pair' in E as [E _]; discriminate E|].
  assert (R : forall u, t_start u = start -> t_attr u = attrs -> roblox_root u) by (intros u U1 U2; split; [congruence|]; exists v, n; rewrite U2; now repeat split).
  destruct empty.
  { apply OK_pair' in E as [E _]. apply pair_equal_spec in E as [E _]. destruct (st =? 0)%Z; [discriminate E|]. apply Some_eq in E. subst t. right. now apply R. }
  apply bind_OK in E as ([u3 s3] & _ & E). apply bind_OK in E as ([[ok cdata] s4] & _ & E). destruct ok; cbn [negb] in E; [|apply OK_pair' in E as [E _]; discriminate E].
  apply bind_OK in E as ([noind s5] & _ & E). apply bind_OK in E as ([[tx|] s6] & _ & E); [|apply OK_pair' in E as [E _]; discriminate E].
  apply bind_OK in E as ([[[[tags en]|] e] s7] & _ & E); [|apply OK_pair' in E as [E _]; discriminate E].
  destruct (c_stack (d_ctx s7)); [discriminate E|]. apply OK_pair' in E as [E _]. apply pair_equal_spec in E as [E _]. destruct (st =? 0)%Z; [discriminate E|]. apply Some_eq in E. subst t. right. now apply R.
Qed.
(** A tree that is not empty comes from a roblox tag with a version that is an
    integer of at least four. *)
Theorem C57_root : forall env discard input end_ r h ws, xml_decode env discard input end_ = OK (r, h, ws) ->
  r_instances r <> [] \/ r_metadata r <> [] \/ h <> [] ->
  exists d t, ReadFrom input end_ = OK d /\ doc_root d = Some t /\ roblox_root t.
Proof.
  intros env discard input end_ r h ws E Hne. unfold xml_decode in E. destruct (ReadFrom input end_) as [d|e| |] eqn:Ed; try discriminate E. exists d.
  assert (Hr : match doc_root d with Some t => (t_comment t = true /\ t_tags t = []) \/ roblox_root t | None => True end).
  { unfold ReadFrom in Ed. destruct (decodeTag _ true _) as [[[o [e|]] s]|e| |] eqn:Et; try discriminate Ed; [|destruct e]. destruct o as [t|]; [|injection Ed as <-; exact I].
    apply decode_root in Et. injection Ed as <-. exact Et. }
  destruct (doc_root d) as [t|] eqn:Er; [destruct Hr as [[_ Hr]|Hr]|].
  - exfalso. unfold codec_read in E. rewrite Er, Hr in E. cbn in E. injection E as <- <- _. cbn in Hne. tauto.
  - exists t. split; [reflexivity|]. now split.
  - exfalso. unfold codec_read in E. rewrite Er in E. injection E as <- <- _. cbn in Hne. tauto.
Qed.
(** A comment alone is accepted as an empty tree, without error or warning;
    what follows it is ignored. *)
Theorem C57_comment_refuted : xml_decode plain_env true (str "<!-- not a model -->") XEOF = OK (Root [] [], [], []) /\
  xml_decode plain_env true (str "<!-- x --><roblox version=""4""><Item class=""Part""></Item></roblox>") XEOF = OK (Root [] [], [], []).
Proof. split; vm_compute; reflexivity. Qed.
Example C57_rejected : (exists e ws, xml_decode plain_env true (str "<roblox version=""3""></roblox>") XEOF = Err (e, ws)) /\
  (exists e ws, xml_decode plain_env true (str "<rbx version=""4""></rbx>") XEOF = Err (e, ws)) /\
  (exists e ws, xml_decode plain_env true [] XEOF = Err (e, ws)).
Proof. repeat split; do 2 eexists; vm_compute; reflexivity. Qed.

(** ** C55: DiscardInvalidProperties *)
Section Discard.
Variable env : xenv.
Lemma get_bool_more t b : get_bool true t = Some b -> get_bool false t = Some b.
Proof. unfold get_bool. destruct (existsb _ _); [easy|]. destruct (existsb _ _); [easy|discriminate]. Qed.
Lemma get_content_more t s w : get_content true t = (Some s, w) -> get_content false t = (Some s, w).
Proof.
  unfold get_content. destruct (nonempty _); [discriminate|]. destruct (t_tags t) as [|sub l]; [discriminate|]. repeat (destruct (bytes_eqb _ _); [easy|]). discriminate.
Qed.
Lemma get_content_panic_free t : exists o w, get_content true t = (o, w).
Proof. destruct (get_content true t) as [o w]. eauto. Qed.
(** What reading with and without the option gives for one value: a value that
    is kept is the same; a panic is a panic. *)
Definition more (o o' : outcome Empty_set (option rvalue * list xerr)) : Prop :=
  match o, o' with
  | OK (Some v, _), OK (v', _) => v' = Some v
  | OK (None, _), OK (v', _) => forall q, v' <> Some (RReference q)
  | Panic, Panic => True
  | _, _ => False
  end.
Lemma more_refl v w w' : (forall q, v = None -> v <> Some (RReference q)) -> more (OK (v, w)) (OK (v, w')).
Proof. intros H. destruct v; cbn; [reflexivity|discriminate]. Qed.
Lemma getValue_more t typ : more (getValue env true t typ) (getValue env false t typ).
Proof.
  unfold getValue. cbv zeta.
  repeat match goal with
  | |- context [if (typ =? ?c)%N then ?x else _] =>
      lazymatch c with
      | TypeFont => fail
      | TypePhysicalProperties => destruct (typ =? TypePhysicalProperties)%N eqn:Ephys
      | TypeContent => destruct (typ =? TypeContent)%N eqn:Econt
      | TypeBool => destruct (typ =? TypeBool)%N eqn:Ebool
      | _ => destruct (typ =? c)%N
      end
  end.
  all: try (unfold get_int, invalid; repeat match goal with
    | |- context [let '(_, _) := ?c in _] => destruct c
    | |- context [match ?c with _ => _ end] => destruct c
    end; cbn [more]; first [reflexivity|intros q Hq; discriminate Hq]).
  - destruct (get_bool true t) as [b|] eqn:E; [rewrite (get_bool_more t b E); reflexivity|]. cbn. intros q. destruct (get_bool false t); discriminate.
  - destruct (get_content true t) as [[c|] w] eqn:E; [rewrite (get_content_more t c w E); reflexivity|]. cbn. destruct (get_content false t) as [[c'|] w']; discriminate.
  - destruct (getFrom _ _ t) as [ok v]. destruct (if ok then _ else _) as [cp|]; [|cbn; discriminate].
    destruct (getFrom (xe_fl env) (wants CF32 ["Density"; "Friction"; "Elasticity"; "FrictionWeight"; "ElasticityWeight"]%string) t) as [ok2 v2].
    destruct (get_bool true cp) as [b|] eqn:E.
    + rewrite (get_bool_more cp b E). destruct b; [|reflexivity]. destruct ok2; cbn; [reflexivity|discriminate].
    + cbn. intros q. destruct (get_bool false cp) as [[]|]; [|discriminate|discriminate]. rewrite andb_false_r. discriminate.
  - destruct (typ =? TypeFont)%N; [|cbn; discriminate]. destruct (getFrom _ _ t) as [ok v]. destruct ok; cbn [negb]; [|cbn; discriminate].
    destruct (vt v "Family") as [fam|]; [|exact I]. destruct (getFrom (xe_fl env) (wants CTag ["CachedFaceId"%string]) t) as [ok2 v2].
    destruct (get_content true fam) as [[f|] w] eqn:E.
    + rewrite (get_content_more fam f w E). destruct (if ok2 then _ else _) as [cf|]; [|reflexivity].
      destruct (get_content true cf) as [[c|] w2] eqn:E2; [rewrite (get_content_more cf c w2 E2); reflexivity|]. cbn. destruct (get_content false cf) as [[c'|] w2']; discriminate.
    + cbn. destruct (get_content false fam) as [[f|] w']; [|discriminate]. destruct (if ok2 then _ else _) as [cf|]; [|discriminate]. destruct (get_content false cf) as [[c'|] w2']; discriminate.
Qed.
(** ** The whole tree *)
Definition heap_more (h h' : heap) : Prop := Forall2 inst_more h h'.
Inductive sub {A} : list A -> list A -> Prop :=
| sub_nil : sub [] []
| sub_both a l l' : sub l l' -> sub (a :: l) (a :: l')
| sub_skip a l l' : sub l l' -> sub l (a :: l').
Lemma sub_add {A} (l l' : list A) a : sub l l' -> sub (l ++ [a]) (l' ++ [a]).
Proof. intros H. induction H; cbn [app]; repeat constructor; assumption. Qed.
Lemma sub_more {A} (l l' : list A) a : sub l l' -> sub l (l' ++ [a]).
Proof. intros H. induction H; cbn [app]; repeat constructor; assumption. Qed.
Record rs (s s' : rdst) : Prop := RS {
  rs_heap : heap_more (rd_heap s) (rd_heap s'); rs_look : rd_look s = rd_look s'; rs_props : rd_props s = rd_props s'; rs_strs : sub (rd_strs s) (rd_strs s') }.
Definition names_in {A} (l l' : list (bytes * A)) : Prop := incl (map fst l) (map fst l').
Lemma mset_names {A} (m : list (bytes * A)) k a n : In n (map fst (mset m k a)) <-> n = k \/ In n (map fst m).
Proof.
  induction m as [|[k' a'] m IH]; cbn [mset map fst In]; [intuition congruence|]. destruct (beqb_spec k' k) as [->|]; cbn [map fst In]; [intuition congruence|]. rewrite IH. intuition congruence.
Qed.
Lemma getProperty_sim t p s s' : rs s s' ->
  match getProperty env true t p s, getProperty env false t p s' with
  | OK (r, s1), OK (r', s1') => rs s1 s1' /\ (forall n v, r = Some (n, v) -> r' = Some (n, v))
  | Panic, Panic => True
  | _, _ => False
  end.
Proof.
  intros R. unfold getProperty. destruct (attr_value _ _) as [name|]; [|split; [exact R|discriminate]].
  destruct (GetCanonType (t_start t)) as [typ optional]. destruct (if optional then getOptional env t typ else Some (Some t)) as [[u|]|]; [|split; [exact R|easy]|split; [exact R|discriminate]].
  pose proof (getValue_more u typ) as M. destruct (getValue env true u typ) as [[v w]|e| |], (getValue env false u typ) as [[v' w']|e'| |]; cbn [more] in M; try (destruct v; contradiction); try contradiction; try (now destruct e); try exact I; cbn [obind].
  assert (R' : rs (rd_warns s w) (rd_warns s' w')) by (destruct R; now constructor).
  destruct v as [v|].
  - subst v'. destruct R' as [R1 R2 R3 R4]. destruct v; try (split; [now constructor|easy]).
    + destruct (IsEmptyReference _); [split; [now constructor|easy]|]. split; [|discriminate]. constructor; cbn [rd_heap rd_look rd_props rd_strs]; try assumption. now f_equal.
    + split; [|discriminate]. constructor; cbn [rd_heap rd_look rd_props rd_strs]; try assumption. now apply sub_add.
  - destruct v' as [v'|]; [|split; [exact R'|discriminate]]. destruct R' as [R1 R2 R3 R4]. destruct v'; try (split; [now constructor|discriminate]).
    + now destruct (M p0).
    + split; [|discriminate]. constructor; cbn [rd_heap rd_look rd_props rd_strs]; try assumption. now apply sub_more.
Qed.
Lemma get_props_sim p tags : forall props props' s s', rs s s' -> names_in props props' ->
  match get_props env true p tags props s, get_props env false p tags props' s' with
  | OK (r, s1), OK (r', s1') => rs s1 s1' /\ names_in r r'
  | Panic, Panic => True
  | _, _ => False
  end.
Proof.
  induction tags as [|t tags IH]; intros props props' s s' R N; cbn [get_props]; [now split|].
  pose proof (getProperty_sim t p s s' R) as G. destruct (getProperty env true t p s) as [[r s1]|e| |], (getProperty env false t p s') as [[r' s1']|e'| |]; try contradiction; try (now destruct e); try exact I; cbn [obind].
  destruct G as [R1 G]. apply IH; [exact R1|]. destruct r as [[n v]|].
  - rewrite (G n v eq_refl). intros x Hx. apply mset_names in Hx. apply mset_names. destruct Hx as [Hx|Hx]; [now left|right; now apply N].
  - destruct r' as [[n v]|]; [|exact N]. intros x Hx. apply mset_names. right. now apply N.
Qed.
Definition item_sim (t : tag) : Prop := forall s s', rs s s' ->
  match get_item env true t s, get_item env false t s' with
  | OK (r, s1), OK (r', s1') => rs s1 s1' /\ r = r'
  | Panic, Panic => True
  | _, _ => False
  end.
Lemma items_sim par tags : Forall item_sim tags -> forall has props props' insts s s', rs s s' -> names_in props props' ->
  match items_loop env true (get_item env true) par tags has props insts s, items_loop env false (get_item env false) par tags has props' insts s' with
  | OK (is, ps, s1), OK (is', ps', s1') => is = is' /\ names_in ps ps' /\ rs s1 s1'
  | Panic, Panic => True
  | _, _ => False
  end.
Proof.
  induction 1 as [|t tags Ht _ IH]; intros has props props' insts s s' R N; cbn [items_loop]; [now split|].
  destruct (bytes_eqb _ _).
  - pose proof (Ht s s' R) as G. destruct (get_item env true t s) as [[r s1]|e| |], (get_item env false t s') as [[r' s1']|e'| |]; try contradiction; try (now destruct e); try exact I; cbn [obind].
    destruct G as [R1 <-]. now apply IH.
  - destruct (bytes_eqb _ _); [|now apply IH]. destruct (_ || _); [now apply IH|].
    pose proof (get_props_sim par (t_tags t) props props' s s' R N) as G. destruct (get_props env true _ _ _ _) as [[r s1]|e| |], (get_props env false _ _ _ _) as [[r' s1']|e'| |]; try contradiction; try (now destruct e); try exact I; cbn [obind].
    destruct G as [R1 N1]. now apply IH.
Qed.
Lemma heap_more_length h h' : heap_more h h' -> length h = length h'.
Proof. intros H. induction H; cbn [length]; congruence. Qed.
Lemma heap_more_hset h h' p i j : heap_more h h' -> inst_more i j -> heap_more (hset h p i) (hset h' p j).
Proof.
  intros H Hij. destruct p as [|p]; [exact H|]. cbn [hset]. revert p. induction H as [|x y h h' Hxy H IH]; intros [|p]; cbn; try constructor; try assumption. apply IH.
Qed.
Lemma heap_more_hget h h' p : heap_more h h' -> match hget h p, hget h' p with Some i, Some j => inst_more i j | None, None => True | _, _ => False end.
Proof.
  intros H. destruct p as [|p]; [exact I|]. cbn [hget]. revert p. induction H as [|i j h h' Hij _ IH]; intros [|p]; cbn; try exact I; [exact Hij|apply IH].
Qed.
Lemma item_sim_all t : item_sim t.
Proof.
  induction t as [start end_ attr empty comment cdata tx noind tags IH] using tag_ind'. intros s s' R. cbn [get_item].
  destruct (attr_value attr (str "class")) as [class|]; [|split; [destruct R; now constructor|reflexivity]].
  set (ref := match attr_value attr (str "referent") with Some r => r | None => [] end). destruct R as [R1 R2 R3 R4]. rewrite <- (heap_more_length _ _ R1), <- R2, <- R3.
  match goal with |- context [items_loop env true _ ?p _ _ _ _ ?s0] => set (p0 := p); set (s1 := s0) end.
  match goal with |- context [items_loop env false _ _ _ _ _ _ ?s0] => set (s1' := s0) end.
  assert (R' : rs s1 s1').
  { constructor; cbn; [|reflexivity|reflexivity|exact R4]. apply Forall2_app; [exact R1|]. constructor; [|constructor]. constructor; try reflexivity. intros x []. }
  pose proof (items_sim p0 tags IH false [] [] [] s1 s1' R' ltac:(intros x [])) as G.
  destruct (items_loop env true _ _ _ _ _ _ _) as [[[is ps] s2]|e| |], (items_loop env false _ _ _ _ _ _ _) as [[[is' ps'] s2']|e'| |]; try contradiction; try (now destruct e); try exact I; cbn [obind].
  destruct G as (<- & N & [S1 S2 S3 S4]). split; [|reflexivity]. constructor; cbn [rd_heap rd_look rd_props rd_strs]; try assumption. apply heap_more_hset; [exact S1|]. constructor; try reflexivity. exact N.
Qed.
Lemma set_prop_more h h' p n v v' : heap_more h h' -> heap_more (set_prop h p n v) (set_prop h' p n v').
Proof.
  intros H. unfold set_prop. pose proof (heap_more_hget h h' p H) as G. destruct (hget h p) as [i|], (hget h' p) as [j|]; try contradiction; [|exact H].
  apply heap_more_hset; [exact H|]. destruct G as [G1 G2 G3 G4 G5]. constructor; try assumption. cbn [set_props i_props]. intros x Hx. apply mset_names in Hx. apply mset_names. destruct Hx as [Hx|Hx]; [now left|right; now apply G5].
Qed.
Lemma inst_more_refl i : inst_more i i.
Proof. constructor; try reflexivity. intros x Hx. exact Hx. Qed.
Lemma inst_more_trans i j k : inst_more i j -> inst_more j k -> inst_more i k.
Proof. intros [] []. constructor; try congruence. intros x Hx. auto. Qed.
Lemma heap_more_refl h : heap_more h h.
Proof. induction h; constructor; [apply inst_more_refl|assumption]. Qed.
Lemma heap_more_trans a b c : heap_more a b -> heap_more b c -> heap_more a c.
Proof.
  intros H. revert c. induction H as [|i j a b Hij _ IH]; intros c H2; inversion H2; subst; constructor; [now apply inst_more_trans with j|now apply IH].
Qed.
Lemma hset_same h p : forall i, hget h p = Some i -> heap_more h (hset h p i).
Proof.
  intros i. destruct p as [|p]; [discriminate|]. cbn [hget hset]. revert p. induction h as [|x h IH]; intros [|p] E; cbn in *; try discriminate; constructor; try apply inst_more_refl; try apply heap_more_refl.
  - injection E as ->. apply inst_more_refl.
  - now apply IH.
Qed.
Lemma hset_more h p i : forall j, hget h p = Some j -> inst_more j i -> heap_more h (hset h p i).
Proof.
  intros j E M. apply heap_more_trans with (hset h p j); [now apply hset_same|]. apply heap_more_hset; [apply heap_more_refl|exact M].
Qed.
Lemma set_prop_grow h p n v : heap_more h (set_prop h p n v).
Proof.
  unfold set_prop. destruct (hget h p) as [i|] eqn:E; [|apply heap_more_refl]. apply hset_more with i; [exact E|].
  constructor; try reflexivity. intros x Hx. apply mset_names. now right.
Qed.
Lemma shared_sim strs strs' t h h' : sub strs strs' -> heap_more h h' -> heap_more (shared_tag strs t h) (shared_tag strs' t h').
Proof.
  intros S H. unfold shared_tag. destruct (bytes_eqb _ _); [|exact H]. destruct (attr_value _ _) as [hash|]; [|exact H]. destruct (b64_decode hash) as [key|]; [|exact H]. destruct (b64_decode (getContent t)) as [value|]; [|exact H].
  revert h h' H. induction S as [|e l l' _ IH|e l l' _ IH]; intros h h' H; cbn [fold_left]; [exact H|apply IH|apply IH].
  - destruct (bytes_eqb _ _); [now apply set_prop_more|exact H].
  - destruct (bytes_eqb _ _); [|exact H]. apply heap_more_trans with h'; [exact H|apply set_prop_grow].
Qed.
Lemma root_sim strs strs' tags : sub strs strs' -> forall md h h', heap_more h h' ->
  fst (root_tags strs tags md h) = fst (root_tags strs' tags md h') /\ heap_more (snd (root_tags strs tags md h)) (snd (root_tags strs' tags md h')).
Proof.
  intros S. induction tags as [|t tags IH]; intros md h h' H; cbn [root_tags]; [now split|]. destruct (bytes_eqb _ _); [now apply IH|]. destruct (bytes_eqb _ _); [|now apply IH].
  apply IH. generalize (t_tags t). intros l. revert h h' H. induction l as [|u l IHl]; intros h h' H; cbn [fold_left]; [exact H|]. apply IHl. now apply shared_sim.
Qed.
Lemma resolve_sim lk l : forall h h', heap_more h h' ->
  heap_more (fold_left (fun h e => fst (Resolve (Some lk) h e)) l h) (fold_left (fun h e => fst (Resolve (Some lk) h e)) l h').
Proof.
  assert (G : forall h e, fst (Resolve (Some lk) h e) = set_prop h (pr_inst e) (pr_prop e) (RReference (rget lk (pr_ref e)))) by (intros h e; unfold Resolve, set_prop; now destruct (hget h (pr_inst e))).
  induction l as [|e l IH]; intros h h' H; cbn [fold_left]; [exact H|]. apply IH. rewrite !G. now apply set_prop_more.
Qed.
Lemma codec_sim d : match codec_read env true d, codec_read env false d with
  | OK (r, h, _), OK (r', h', _) => r = r' /\ heap_more h h'
  | Panic, Panic => True
  | _, _ => False
  end.
Proof.
  unfold codec_read. destruct (doc_root d) as [t|]; [|split; [reflexivity|constructor]].
  pose proof (items_sim 0 (t_tags t) ltac:(apply Forall_forall; intros u _; apply item_sim_all) false [] [] [] (Rdst [] [] [] [] (doc_warn d)) (Rdst [] [] [] [] (doc_warn d))
    ltac:(constructor; cbn; constructor) ltac:(intros x [])) as G.
  unfold getItems. destruct (items_loop env true _ _ _ _ _ _ _) as [[[is ps] s]|e| |], (items_loop env false _ _ _ _ _ _ _) as [[[is' ps'] s']|e'| |]; try contradiction; try (now destruct e); try exact I; cbn [obind].
  destruct G as (<- & _ & [S1 S2 S3 S4]). pose proof (root_sim (rd_strs s) (rd_strs s') (t_tags t) S4 [] (rd_heap s) (rd_heap s') S1) as [E1 E2].
  destruct (root_tags (rd_strs s) _ _ _) as [md h], (root_tags (rd_strs s') _ _ _) as [md' h']. cbn [fst snd] in *. subst md'. split; [reflexivity|]. rewrite <- S2, <- S3. now apply resolve_sim.
Qed.
End Discard.
(** The option changes neither the error nor the panic, nor the instances and
    the metadata: without it, instances just have more properties. *)
Theorem C55_discard : forall env input end_,
  match xml_decode env true input end_, xml_decode env false input end_ with
  | OK (r, h, _), OK (r', h', _) => r = r' /\ Forall2 inst_more h h'
  | Err e, Err e' => e = e'
  | Panic, Panic => True
  | _, _ => False
  end.
Proof.
  intros env input end_. pose proof (C51_decode_total env true input end_) as T. unfold xml_decode in *. destruct (ReadFrom input end_) as [d|e| |]; [|reflexivity|exact I|].
  - pose proof (codec_sim env d) as S. destruct (codec_read env true d) as [[[r h] w]|e| |], (codec_read env false d) as [[[r' h'] w']|e'| |]; try contradiction; try (now destruct e); try exact I. exact S.
  - destruct T as [(? & ? & ? & T)|[(? & ? & T)|[T _]]]; discriminate T.
Qed.
(** A value that is kept with the option is the same without. *)
Theorem C55_same_value : forall env t typ v w, getValue env true t typ = OK (Some v, w) -> exists w', getValue env false t typ = OK (Some v, w').
Proof.
  intros env t typ v w E. pose proof (getValue_more env t typ) as M. rewrite E in M. cbn [more] in M. destruct (getValue env false t typ) as [[v' w']| | |]; try contradiction. subst v'. now exists w'.
Qed.
(** Without the option, no value of a known type other than Content and Font
    is dropped: what cannot be read becomes the zero value. *)
Theorem C55_retained : forall env t typ, type_known typ -> typ <> TypeContent -> typ <> TypeFont -> exists v w, getValue env false t typ = OK (Some v, w).
Proof.
  intros env t typ K N1 N2. unfold type_known in K. cbv zeta in K. unfold getValue. cbv zeta.
  repeat match goal with
  | |- context [if (typ =? ?c)%N then _ else _] => destruct (N.eqb_spec typ c); [try contradiction|]
  end.
  all: try (unfold get_int, invalid; repeat match goal with
    | |- context [let '(_, _) := ?c in _] => destruct c
    | |- context [match ?c with _ => _ end] => destruct c
    end; cbn [option_map]; do 2 eexists; reflexivity).
  - unfold get_bool. repeat destruct (existsb _ _); cbn; do 2 eexists; reflexivity.
  - destruct (getFrom _ _ t) as [ok v]. destruct (if ok then _ else _) as [cp|]; [|cbn; do 2 eexists; reflexivity]. unfold get_bool.
    destruct (existsb _ _); [do 2 eexists; reflexivity|]. destruct (existsb _ _); [|do 2 eexists; reflexivity]. destruct (getFrom _ _ t) as [ok2 v2]. rewrite andb_false_r. do 2 eexists; reflexivity.
  - exfalso. repeat (destruct K as [K|K]; [congruence|]). assumption.
Qed.
(** The documentation says that a value with a component that cannot be read is
    discarded.  A component that is not a number is the zero value even with
    the option, and a Content with text is dropped even without. *)
Definition vec_doc (x : bytes) : bytes :=
  str "<roblox version=""4""><Item class=""Part""><Properties><Vector3 name=""p""><X>" ++ x ++ str "</X><Y>1</Y><Z>2</Z></Vector3></Properties></Item></roblox>".
Definition content_doc : bytes :=
  str "<roblox version=""4""><Item class=""Part""><Properties><Content name=""p"">text</Content></Properties></Item></roblox>".
Theorem C55_component_refuted :
  (exists v, xml_decode plain_env true (vec_doc (str "bad")) XEOF = OK (Root [1] [], [Inst (str "Part") [] false [(str "p", RVector3 (Vec3 0 (v3y v) (v3z v)))] []], [])) /\
  xml_decode plain_env false content_doc XEOF = OK (Root [1] [], [Inst (str "Part") [] false [] []], []).
Proof. split; [exists (Vec3 0 0x3f800000 0x40000000)|]; vm_compute; reflexivity. Qed.

(** ** C59: warnings *)
Section Warnings.
Variable (env : xenv) (discard : bool).
Definition binary_warns (w : list xerr) : Prop := Forall (eq no_binary) w.
Lemma get_content_warns t : binary_warns (snd (get_content discard t)).
Proof. unfold get_content. destruct (nonempty _); [constructor|]. destruct (t_tags t) as [|u l]; [destruct discard; constructor|]. repeat (destruct (bytes_eqb _ _); [repeat constructor|]). destruct discard; constructor. Qed.
Lemma getValue_warns t typ v w : getValue env discard t typ = OK (v, w) -> binary_warns w.
Proof.
  unfold getValue. cbv zeta.
  repeat match goal with
  | |- context [if (typ =? ?c)%N then ?x else _] =>
      lazymatch c with
      | TypeFont => fail
      | TypeContent => destruct (typ =? TypeContent)%N eqn:Econt
      | _ => destruct (typ =? c)%N
      end
  end.
  all: try (repeat match goal with
    | |- context [let '(_, _) := ?c in _] => destruct c
    | |- context [if ?c then _ else _] => destruct c
    end; intros E; apply OK_pair' in E as [_ <-]; constructor).
  - pose proof (get_content_warns t) as G. destruct (get_content discard t) as [r w']. intros E. apply OK_pair' in E as [_ <-]. exact G.
  - destruct (typ =? TypeFont)%N; [|intros E; apply OK_pair' in E as [_ <-]; constructor]. destruct (getFrom _ _ t) as [ok v0]. destruct (negb ok); [intros E; apply OK_pair' in E as [_ <-]; constructor|].
    destruct (vt v0 "Family") as [fam|]; [|discriminate]. pose proof (get_content_warns fam) as G. destruct (get_content discard fam) as [[f|] w1]; [|intros E; apply OK_pair' in E as [_ <-]; exact G].
    destruct (getFrom _ _ t) as [ok2 v2]. destruct (if ok2 then _ else _) as [cf|]; [|intros E; apply OK_pair' in E as [_ <-]; exact G].
    pose proof (get_content_warns cf) as G2. destruct (get_content discard cf) as [c w2]. intros E. apply OK_pair' in E as [_ <-]. apply Forall_app. now split.
Qed.
(** Warnings added: so many of Items without a class, any number of binary data. *)
Definition adds (n : nat) (s s' : rdst) : Prop :=
  exists w, rd_warn s' = rd_warn s ++ w /\ length (filter xerr_is_no_class w) = n /\ Forall (fun e => e = no_class \/ e = no_binary) w.
Lemma binary_adds w : binary_warns w -> length (filter xerr_is_no_class w) = 0 /\ Forall (fun e => e = no_class \/ e = no_binary) w.
Proof. intros H. induction H as [|e w <- _ [I1 I2]]; [split; [reflexivity|constructor]|]. split; [exact I1|constructor; [now right|exact I2]]. Qed.
Lemma adds_refl s : adds 0 s s.
Proof. exists []. rewrite app_nil_r. repeat split; constructor. Qed.
Lemma adds_trans n m s1 s2 s3 : adds n s1 s2 -> adds m s2 s3 -> adds (n + m) s1 s3.
Proof.
  intros (w & E1 & L1 & F1) (w' & E2 & L2 & F2). exists (w ++ w'). rewrite E2, E1, app_assoc. split; [reflexivity|]. rewrite filter_app, app_length. split; [lia|]. apply Forall_app. now split.
Qed.
Lemma getProperty_adds t p s r s' : getProperty env discard t p s = OK (r, s') -> adds 0 s s'.
Proof.
  unfold getProperty. destruct (attr_value _ _) as [name|]; [|intros E; apply OK_pair' in E as [_ <-]; apply adds_refl].
  destruct (GetCanonType (t_start t)) as [typ optional]. destruct (if optional then getOptional env t typ else Some (Some t)) as [[u|]|]; [|intros E; apply OK_pair' in E as [_ <-]; apply adds_refl|intros E; apply OK_pair' in E as [_ <-]; apply adds_refl].
  intros E. apply bind_OK in E as ([v w] & Ev & E). apply getValue_warns in Ev. apply binary_adds in Ev as [L F].
  assert (G : forall s2, rd_warn s2 = rd_warn s ++ w -> adds 0 s s2) by (intros s2 E2; exists w; now repeat split).
  destruct v as [v|]; [|apply OK_pair' in E as [_ <-]; now apply G]. destruct v; try (apply OK_pair' in E as [_ <-]; now apply G).
  destruct (IsEmptyReference _); apply OK_pair' in E as [_ <-]; now apply G.
Qed.
Lemma get_props_adds p tags : forall props s r s', get_props env discard p tags props s = OK (r, s') -> adds 0 s s'.
Proof.
  induction tags as [|t tags IH]; intros props s r s' E; cbn [get_props] in E; [apply OK_pair' in E as [_ <-]; apply adds_refl|].
  apply bind_OK in E as ([r1 s1] & E1 & E). apply getProperty_adds in E1. apply IH in E. exact (adds_trans 0 0 _ _ _ E1 E).
Qed.
Definition item_adds (t : tag) : Prop := forall s r s', t_start t = str "Item" -> get_item env discard t s = OK (r, s') -> adds (classless t) s s'.
Lemma items_adds par tags : Forall item_adds tags -> forall has props insts s is ps s',
  items_loop env discard (get_item env discard) par tags has props insts s = OK (is, ps, s') -> adds (classless_in tags) s s'.
Proof.
  induction 1 as [|t tags Ht _ IH]; intros has props insts s is ps s' E; cbn [items_loop] in E; [apply OK_pair' in E as [_ <-]; apply adds_refl|].
  unfold classless_in. cbn [fold_right]. fold (classless_in tags).
  destruct (beqb_spec (t_start t) (str "Item")) as [Es|Es].
  - apply bind_OK in E as ([r1 s1] & E1 & E). apply (Ht _ _ _ Es) in E1. apply IH in E. exact (adds_trans _ _ _ _ _ E1 E).
  - assert (Z : classless t = 0) by (destruct t as [start ? ? ? ? ? ? ? ?]; cbn [classless t_start] in *; destruct (beqb_spec start (str "Item")); [contradiction|reflexivity]).
    rewrite Z. cbn [Nat.add]. destruct (bytes_eqb _ _); [|now apply IH in E]. destruct (_ || _); [now apply IH in E|].
    apply bind_OK in E as ([r1 s1] & E1 & E). apply get_props_adds in E1. apply IH in E. exact (adds_trans 0 _ _ _ _ E1 E).
Qed.
Lemma item_adds_all t : item_adds t.
Proof.
  induction t as [start end_ attr empty comment cdata tx noind tags IH] using tag_ind'. intros s r s' Es E. cbn [t_start] in Es. cbn [get_item] in E. cbn [classless]. rewrite Es.
  change (bytes_eqb (str "Item") (str "Item")) with true. cbv iota. destruct (attr_value attr (str "class")) as [class|].
  - apply bind_OK in E as ([[is ps] s2] & E2 & E). apply (items_adds _ _ IH) in E2. apply OK_pair' in E as [_ <-]. destruct E2 as (w & W1 & W2). exists w. split; [|exact W2]. exact W1.
  - apply OK_pair' in E as [_ <-]. exists [no_class]. split; [reflexivity|]. split; [reflexivity|]. repeat constructor.
Qed.
End Warnings.
(** Decode returns the warnings of the parser, then one for each Item without a
    class and possibly some for binary data; nothing else. *)
Theorem C59_warnings : forall env discard input end_ r h ws, xml_decode env discard input end_ = OK (r, h, ws) ->
  exists d w, ReadFrom input end_ = OK d /\ ws = doc_warn d ++ w /\
    length (filter xerr_is_no_class w) = classless_in (match doc_root d with Some t => t_tags t | None => [] end) /\
    Forall (fun e => e = no_class \/ e = no_binary) w.
Proof.
  intros env discard input end_ r h ws E. unfold xml_decode in E. destruct (ReadFrom input end_) as [d|e| |] eqn:Ed; try discriminate E. exists d.
  unfold codec_read in E. destruct (doc_root d) as [t|].
  2:{ exists []. apply OK_pair' in E as [_ <-]. rewrite app_nil_r. repeat split; constructor. }
  unfold getItems in E. destruct (items_loop env discard (get_item env discard) 0 (t_tags t) false [] [] _) as [[[is ps] s]|e| |] eqn:Es; cbn [obind] in E; try discriminate E; [|now destruct e].
  apply items_adds in Es; [|apply Forall_forall; intros u _; apply item_adds_all]. destruct Es as (w & W1 & W2 & W3). cbn [rd_warn] in W1.
  destruct (root_tags _ _ _ _) as [md h1]. apply OK_pair' in E as [_ <-]. exists w. now repeat split.
Qed.
Example C59_example : exists r h, xml_decode plain_env true (str "<roblox version=""4""><Item></Item><Item class=""A""><Item></Item><X><Item></Item></X><Properties><Content name=""c""><binary></binary></Content></Properties></Item></roblox>") XEOF
  = OK (r, h, [no_class; no_class; no_binary]).
Proof. do 2 eexists. vm_compute. reflexivity. Qed.
