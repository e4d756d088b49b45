(** XmlTreeEnc.v - what the XML encoder makes of a forest. *)
From Coq Require Import Permutation.
From Verif Require Import Base RbxlValues RbxValues Tree RbxlCodec SpecValues SpecTree SpecCodec SortProofs TreeProofs RbxlCodecEnc PropRoot PropTree
  XmlText XmlDoc XmlCodec SpecXml XmlTextProofs XmlLayout XmlBare XmlValues.
Local Notation string := String.string.

Lemma OK_pair' {E A B} (a a' : A) (b b' : B) : (OK (a, b) : outcome E (A * B)) = OK (a', b') -> a = a' /\ b = b'.
Proof. intros H. injection H as -> ->. now split. Qed.
Lemma hex_upper_no_cr b : no_cr (SpecRoot.hex "0123456789ABCDEF" b) = true.
Proof. destruct b; vm_compute; reflexivity. Qed.
Lemma generated_no_cr x : length x = 16 -> no_cr (GenerateReference x) = true.
Proof.
  intros H. destruct (C37_reference_text x H) as [-> _]. rewrite no_cr_app. change (no_cr (str "RBX")) with true. cbn [andb].
  induction (mapi SpecRoot.v4_byte 0 x) as [|b l IH]; [reflexivity|]. cbn [flat_map]. now rewrite no_cr_app, hex_upper_no_cr.
Qed.

(** ** Properties *)
Section Props.
Variable (env : xenv) (discard : bool).
Let fl := xe_fl env.
Hypothesis Hfl : floats_ok fl.

(** What reading a property adds: a value now, a reference to resolve, a
    shared string to fill in. *)
Definition imm (v : rvalue) : option rvalue :=
  match v with
  | RReference p => if (p =? 0)%nat then Some (RReference 0) else None
  | RSharedString _ => None
  | v => xml_value_or fl discard v
  end.
Definition later_ref (rho : ptr -> bytes) (p : ptr) (nv : bytes * rvalue) : list propref :=
  match snd nv with RReference q => if (q =? 0)%nat then [] else [PropRef p (fst nv) (rho q)] | _ => [] end.
Definition later_str (p : ptr) (nv : bytes * rvalue) : list propref :=
  match snd nv with RSharedString s => [PropRef p (fst nv) (xe_hash env s)] | _ => [] end.
Definition ptag (rho : ptr -> bytes) (nv : bytes * rvalue) (t : tag) : Prop :=
  plain_tag t = true /\
  forall p s, getProperty env discard (settled t) p s =
    OK (option_map (pair (fst nv)) (imm (snd nv)),
        Rdst (rd_heap s) (rd_look s) (rd_props s ++ later_ref rho p nv) (rd_strs s ++ later_str p nv) (rd_warn s)).

Lemma settled_attr a t : settled (with_attr a t) = with_attr (map nl_attr a) (settled t).
Proof. now destruct t. Qed.
Lemma plain_attr a t : forallb (fun a => good_name (fst a)) a = true -> t_attr t = [] -> plain_tag t = true -> plain_tag (with_attr a t) = true.
Proof. destruct t as [s e at_ em c cd tx ni ts]. cbn [t_attr with_attr plain_tag]. intros -> ->. exact (fun H => H). Qed.
Lemma attr_content' a t : getContent (with_attr a t) = getContent t.
Proof. now destruct t. Qed.
Lemma attr_tags a t : t_tags (with_attr a t) = t_tags t.
Proof. now destruct t. Qed.
Lemma attr_start a t : t_start (with_attr a t) = t_start t.
Proof. now destruct t. Qed.
Lemma attr_attr a t : t_attr (with_attr a t) = a.
Proof. now destruct t. Qed.
Lemma getValue_attr a t typ : getValue env discard (with_attr a t) typ = getValue env discard t typ.
Proof. destruct t. reflexivity. Qed.
Lemma rd_same s : s = Rdst (rd_heap s) (rd_look s) (rd_props s ++ []) (rd_strs s ++ []) (rd_warn s).
Proof. rewrite !app_nil_r. now destruct s. Qed.
Lemma rd_warns_nil s : rd_warns s [] = s.
Proof. unfold rd_warns. rewrite app_nil_r. now destruct s. Qed.
Lemma imm_self v : self_contained v -> imm v = xml_value_or fl discard v.
Proof. destruct v; cbn [self_contained imm]; intros H; (contradiction || reflexivity). Qed.
Lemma later_ref_self rho p n v : self_contained v -> later_ref rho p (n, v) = [].
Proof. destruct v; cbn [self_contained]; intros H; (contradiction || reflexivity). Qed.
Lemma later_str_self p n v : self_contained v -> later_str p (n, v) = [].
Proof. destruct v; cbn [self_contained]; intros H; (contradiction || reflexivity). Qed.
Lemma plain_self v w : plain v -> xml_value_or fl discard v = Some w -> self_contained w.
Proof.
  unfold xml_value_or. destruct v; cbn [plain xml_value]; intros H E; try contradiction; try (injection E as <-; exact I).
  - destruct custom; injection E as <-; exact I.
  - destruct (weight <? 2 ^ 15)%N; [destruct (b2N style <=? 1)%N|]; [injection E as <-; exact I| |injection E as <-; exact I].
    destruct discard; [discriminate E|injection E as <-; exact I].
Qed.
Lemma settled_name t : t_start (settled t) = t_start t.
Proof. now destruct t. Qed.
Lemma ptag_plain rho name v t : no_cr name = true -> plain v -> back env discard v t -> ptag rho (name, v) (with_attr [(str "name", name)] t).
Proof.
  intros Hn Hp (H1 & H2 & typ & H3 & H4).
  assert (Hs : self_contained v) by (destruct v; easy).
  split; [now apply plain_attr|]. intros p s. rewrite settled_attr. unfold getProperty. rewrite attr_attr, attr_start, settled_name, H3.
  cbn [map]; unfold nl_attr; cbn [fst snd]. rewrite nl_no_cr by exact Hn. cbn [attr_value]. change (bytes_eqb (str "name") (str "name")) with true. cbv iota.
  rewrite getValue_attr, H4. cbn [obind]. rewrite rd_warns_nil, imm_self by exact Hs. rewrite later_ref_self, later_str_self by exact Hs. rewrite <- rd_same.
  destruct (xml_value_or fl discard v) as [w|] eqn:E; fold fl; rewrite ?E; [|reflexivity].
  pose proof (plain_self v w Hp E) as Hw. destruct w; try contradiction; reflexivity.
Qed.
Lemma canon_optional t : GetCanonType (GetCanonTag t true) = (named_type t, true) /\ good_name (GetCanonTag t true) = true.
Proof.
  unfold named_type. destruct (existsb (fun e => N.eqb t (fst e)) canon_tags) eqn:E.
  - apply existsb_exists in E as (e & Hin & He). apply N.eqb_eq in He. subst t.
    cbn [canon_tags In] in Hin. repeat (destruct Hin as [<-|Hin]; [vm_compute; split; reflexivity|]). destruct Hin.
  - assert (G : assocN canon_tags t = None).
    { revert E. generalize canon_tags. induction l as [|[k a] l IH]; [reflexivity|]. cbn [existsb fst assocN]. intros E. apply orb_false_elim in E as [E1 E2].
      rewrite N.eqb_sym in E1. rewrite ?E1, ?(N.eqb_sym t k), ?E1. now apply IH. }
    unfold GetCanonTag. rewrite G. split; vm_compute; reflexivity.
Qed.
Lemma ptag_none rho name t o ni : no_cr name = true -> (forall p r, o <> Some (RCFrame p r)) ->
  ptag rho (name, ROptional t o) (with_attr [(str "name", name)] (Tag (GetCanonTag t true) [] [] false false None [] ni [])).
Proof.
  intros Hn Ho. destruct (canon_optional t) as [E G]. split; [apply plain_attr; [reflexivity|reflexivity|]; cbn [plain_tag]; now rewrite G|].
  intros p s. rewrite settled_attr. unfold getProperty. rewrite attr_attr, attr_start, settled_name. cbn [t_start]. rewrite E.
  cbn [map]; unfold nl_attr; cbn [fst snd]. rewrite nl_no_cr by exact Hn. cbn [attr_value]. change (bytes_eqb (str "name") (str "name")) with true. cbv iota.
  unfold getOptional. rewrite attr_tags. cbn [settled t_tags map]. unfold later_ref, later_str. cbn [snd]. rewrite <- rd_same. do 3 f_equal.
  unfold imm, xml_value_or, xml_value, mkNone. destruct o as [[]|]; try reflexivity. now destruct (Ho pos rot).
Qed.
Lemma ptag_some rho name p0 rot : no_cr name = true -> wf_vec3 p0 -> length rot = 9 -> Forall f32 rot ->
  ptag rho (name, ROptional TypeCFrame (Some (RCFrame p0 rot)))
    (with_attr [(str "name", name)] (node (GetCanonTag TypeCFrame true) [with_start (str "CFrame") (cframe_out env (str "CoordinateFrame") p0 rot)])).
Proof.
  intros Hn Hp Hl Hr. change (with_start (str "CFrame") (cframe_out env (str "CoordinateFrame") p0 rot)) with (cframe_out env (str "CFrame") p0 rot).
  split.
  { apply plain_attr; [reflexivity|reflexivity|]. destruct (rot9 rot Hl) as (a & b & c & d & e & f & g & h & i & ->). reflexivity. }
  intros p s. rewrite settled_attr. unfold getProperty. rewrite attr_attr, attr_start, settled_name.
  change (GetCanonType (t_start (node (GetCanonTag TypeCFrame true) [cframe_out env (str "CFrame") p0 rot]))) with (TypeCFrame, true).
  cbn [map]; unfold nl_attr; cbn [fst snd]. rewrite nl_no_cr by exact Hn. cbn [attr_value]. change (bytes_eqb (str "name") (str "name")) with true. cbv iota.
  unfold getOptional. rewrite attr_tags.
  change (t_tags (settled (node (GetCanonTag TypeCFrame true) [cframe_out env (str "CFrame") p0 rot]))) with [settled (cframe_out env (str "CFrame") p0 rot)].
  cbv iota. change (TypeCFrame =? TypeCFrame)%N with true. cbv iota.
  assert (E : forall a, getFrom (xe_fl env) (wants CTag ["CFrame"]%string)
     (with_attr a (settled (node (GetCanonTag TypeCFrame true) [cframe_out env (str "CFrame") p0 rot]))) = (true, [(str "CFrame", VT (settled (cframe_out env (str "CFrame") p0 rot)))])) by reflexivity.
  rewrite E. change (vt _ "CFrame") with (Some (settled (cframe_out env (str "CFrame") p0 rot))). cbv iota.
  rewrite (back_cframe_at env discard Hfl) by assumption. cbn [obind]. rewrite rd_warns_nil. unfold later_ref, later_str. cbn [snd]. rewrite <- rd_same. reflexivity.
Qed.
Lemma nl_empty r : no_cr r = true -> nl_text r = r.
Proof. apply nl_text_no_cr. Qed.
Lemma ptag_nil rho name : no_cr name = true -> ptag rho (name, RReference 0) (with_attr [(str "name", name)] (leaf "Ref" (str "null") true)).
Proof.
  intros Hn. split; [reflexivity|]. intros p s. rewrite settled_attr. unfold getProperty. rewrite attr_attr, attr_start, settled_name.
  cbn [map]; unfold nl_attr; cbn [fst snd]. rewrite nl_no_cr by exact Hn. cbn [attr_value]. change (bytes_eqb (str "name") (str "name")) with true. cbv iota.
  change (GetCanonType (t_start (leaf "Ref" (str "null") true))) with (TypeReference, false). cbv iota. rewrite getValue_attr.
  change (getValue env discard (settled (leaf "Ref" (str "null") true)) TypeReference) with (@OK Empty_set _ (Some (RReference 0), @nil xerr)). cbn [obind].
  rewrite rd_warns_nil, attr_content'. change (IsEmptyReference (getContent (settled (leaf "Ref" (str "null") true)))) with true. cbv iota.
  unfold later_ref, later_str. cbn [snd Nat.eqb]. rewrite <- rd_same. reflexivity.
Qed.
Lemma ptag_ref (rho : ptr -> bytes) name q : no_cr name = true -> q <> 0 -> no_cr (rho q) = true -> IsEmptyReference (rho q) = false ->
  ptag rho (name, RReference q) (with_attr [(str "name", name)] (leaf "Ref" (rho q) true)).
Proof.
  intros Hn Hq Hr He. split; [reflexivity|]. intros p s. rewrite settled_attr. unfold getProperty. rewrite attr_attr, attr_start, settled_name.
  cbn [map]; unfold nl_attr; cbn [fst snd]. rewrite nl_no_cr by exact Hn. cbn [attr_value]. change (bytes_eqb (str "name") (str "name")) with true. cbv iota.
  change (GetCanonType (t_start (leaf "Ref" (rho q) true))) with (TypeReference, false). cbv iota. rewrite getValue_attr.
  change (getValue env discard (settled (leaf "Ref" (rho q) true)) TypeReference) with (@OK Empty_set _ (Some (RReference 0), @nil xerr)). cbn [obind].
  rewrite rd_warns_nil, attr_content'. cbn [settled leaf getContent t_cdata t_text]. rewrite nl_text_no_cr, He by exact Hr.
  unfold later_ref, later_str, imm. cbn [snd fst]. replace (q =? 0) with false by (symmetry; now apply Nat.eqb_neq). rewrite app_nil_r. reflexivity.
Qed.
Lemma ptag_shared rho name s t : no_cr name = true -> b64_text t (xe_hash env s) ->
  ptag rho (name, RSharedString s) (with_attr [(str "name", name)] (leaf "SharedString" t true)).
Proof.
  intros Hn (H1 & H2 & _). split; [reflexivity|]. intros p st. rewrite settled_attr. unfold getProperty. rewrite attr_attr, attr_start, settled_name.
  cbn [map]; unfold nl_attr; cbn [fst snd]. rewrite nl_no_cr by exact Hn. cbn [attr_value]. change (bytes_eqb (str "name") (str "name")) with true. cbv iota.
  change (GetCanonType (t_start (leaf "SharedString" t true))) with (TypeSharedString, false). cbv iota. rewrite getValue_attr.
  assert (E : getValue env discard (settled (leaf "SharedString" t true)) TypeSharedString = OK (Some (RSharedString (xe_hash env s)), [])).
  { unfold getValue. cbv zeta.
    repeat match goal with |- (if N.eqb ?a ?b then _ else _) = _ => let r := eval vm_compute in (N.eqb a b) in change (N.eqb a b) with r; cbv iota end.
    cbn [settled leaf getContent t_cdata t_text]. rewrite nl_text_no_cr, H1 by exact H2. reflexivity. }
  rewrite E. cbn [obind]. rewrite rd_warns_nil. unfold later_ref, later_str. cbn [snd fst imm]. rewrite app_nil_r. reflexivity.
Qed.
End Props.

(** ** Trees *)
Section Trees.
Variable (env : xenv) (discard : bool) (rnd : nat -> bytes) (h0 : heap) (Pool : bytes -> Prop) (noref : bool).
Let fl := xe_fl env.
Hypothesis Hfl : floats_ok fl.
Hypothesis Hrnd : forall k, length (rnd k) = 16.
Hypothesis Hnr : never_repeats (length h0) rnd.

Definition from (r : bytes) (q : ptr) : Prop :=
  exists i0, hget h0 q = Some i0 /\ (r = i_ref i0 \/ exists j, r = GenerateReference (rnd j)).
Definition INV (s : rest_) : Prop :=
  RI h0 (re_heap s) (re_refs s) /\ length (re_heap s) = length h0 /\
  (forall q i, hget (re_heap s) q = Some i -> from (i_ref i) q) /\
  NoDup (map fst (re_shared s)) /\ (forall k b, mfind (re_shared s) k = Some b -> k = xe_hash env b /\ Pool b).
Definition grows (s s' : rest_) : Prop :=
  mono (re_refs s) (re_refs s') /\ forall k b, mfind (re_shared s) k = Some b -> mfind (re_shared s') k = Some b.
Lemma grows_refl s : grows s s.
Proof. split; [apply mono_refl|easy]. Qed.
Lemma grows_trans a b c : grows a b -> grows b c -> grows a c.
Proof. intros [H1 H2] [H3 H4]. split; [eapply mono_trans; eauto|auto]. Qed.
(** A naming of the instances, and a set of keys (with address 0) and named
    instances (with an empty key) that fit a state. *)
Definition fits (rho : ptr -> bytes) (K : bytes -> ptr -> Prop) (s : rest_) : Prop :=
  (forall r q, mfind (re_refs s) r = Some q -> rho q = r /\ K [] q) /\ (forall k b, mfind (re_shared s) k = Some b -> K k 0).
Lemma fits_less rho K s s' : grows s s' -> fits rho K s' -> fits rho K s.
Proof. intros [H1 H2] [H3 H4]. split; [intros r q H; apply H3, H1, H|intros k b H; eapply H4, H2, H]. Qed.

Lemma get_ref_from h m k p r h' m' k' i : hget h p = Some i -> get_ref rnd h m k p = OK (r, h', m', k') -> r = i_ref i \/ exists j, r = GenerateReference (rnd j).
Proof.
  intros Hi H. unfold get_ref in H. destruct (p =? 0) eqn:E0; [destruct p; [discriminate Hi|discriminate E0]|]. rewrite Hi in H.
  destruct (IsEmptyReference (i_ref i) || _).
  - destruct (regenerate_spec rnd m (S (length m)) k) as [(r0 & k0 & E & Hf & j & Hj)|[E _]]; rewrite E in H; [|discriminate H]. cbn [obind] in H.
    apply OK_pair' in H as [H _]. apply pair_equal_spec in H as [H _]. apply pair_equal_spec in H as [<- _]. right. eauto.
  - apply OK_pair' in H as [H _]. apply pair_equal_spec in H as [H _]. apply pair_equal_spec in H as [<- _]. now left.
Qed.
Lemma get_ref_inv s p i0 : INV s -> hget h0 p = Some i0 -> no_cr (i_ref i0) = true ->
  exists r h' m' k', get_ref rnd (re_heap s) (re_refs s) (re_rnd s) p = OK (r, h', m', k') /\
    INV (Rest h' m' k' (re_shared s)) /\ grows s (Rest h' m' k' (re_shared s)) /\
    mfind m' r = Some p /\ no_cr r = true /\ IsEmptyReference r = false /\
    exists i, hget h' p = Some i /\ same_but_ref i0 i.
Proof.
  intros (HR & HL & HF & HS1 & HS2) Hp Hcr. pose proof (hget_some _ _ _ Hp) as Hrange.
  destruct (get_ref_spec rnd h0 (re_heap s) (re_refs s) (re_rnd s) p HR Hrange) as [(r & h' & m' & k' & E & A1 & A2 & A3 & A4 & A5 & A6 & A7)|[_ B]]; [|contradiction].
  exists r, h', m', k'. split; [exact E|].
  pose proof HR as (_ & R1 & _). destruct (R1 p i0 Hp) as (i & Hi & Si).
  pose proof (get_ref_from _ _ _ _ _ _ _ _ _ Hi E) as Hr. destruct (HF p i Hi) as (j0 & Hj & Hij). rewrite Hp in Hj. apply Some_eq in Hj. subst j0.
  assert (Hfr : r = i_ref i0 \/ exists j, r = GenerateReference (rnd j)) by (destruct Hr as [-> | Hr]; [exact Hij|now right]).
  split; [|split; [|split; [exact A2|split; [|split]]]].
  - split; [exact A1|]. split; [cbn [re_heap]; congruence|]. split; [|split; [exact HS1|exact HS2]].
    cbn [re_heap]. intros q iq Hq. destruct (Nat.eq_dec q p) as [->|Hne].
    + rewrite (A7 i Hi) in Hq. apply Some_eq in Hq. subst iq. exists i0. split; [exact Hp|exact Hfr].
    + rewrite A6 in Hq by exact Hne. now apply HF.
  - split; [exact A4|now intros].
  - destruct Hfr as [->|[j ->]]; [exact Hcr|]. apply generated_no_cr, Hrnd.
  - destruct A1 as (_ & _ & A1 & _). now destruct (A1 r p A2) as (_ & ? & _).
  - exists (set_ref i r). split; [now apply A7|]. eapply same_trans; [exact Si|]. apply same_but_ref_set.
Qed.

(** What is needed of a property. *)
Definition prop_ok (nv : bytes * rvalue) : Prop :=
  no_cr (fst nv) = true /\ wf_rvalue (snd nv) /\ enclosed (snd nv) = true /\
  match snd nv with
  | RReference q => q = 0 \/ exists i, hget h0 q = Some i /\ no_cr (i_ref i) = true
  | RSharedString b => Pool b
  | _ => True
  end.
Definition known (K : bytes -> ptr -> Prop) (nv : bytes * rvalue) : Prop :=
  match snd nv with RSharedString b => K (xe_hash env b) 0 | RReference q => q = 0 \/ K [] q | _ => True end.
Definition ptag_in rho K nv t : Prop := ptag env discard rho nv t /\ known K nv.
Lemma known_self K n v : self_contained v -> known K (n, v).
Proof. destruct v; cbn [self_contained]; intros H; (contradiction || exact I). Qed.
Lemma encode_prop_ok name v s : INV s -> prop_ok (name, v) ->
  exists t s', encodeProperty env rnd v s = OK (t, s') /\ INV s' /\ grows s s' /\
    forall rho K, fits rho K s' -> ptag_in rho K (name, v) (with_attr [(str "name", name)] t).
Proof.
  intros Hs (Hn & Hw & He & Hx). cbn [fst snd] in *.
  assert (Hc : plain v \/ (exists q, v = RReference q) \/ (exists b, v = RSharedString b) \/ exists t o, v = ROptional t o).
  { destruct v; try (left; exact I); [right; left|right; right; left|right; right; right]; eauto. }
  destruct Hc as [Hp|[[q ->]|[[b ->]|(t & o & ->)]]].
  - destruct (value_back env discard Hfl rnd v s Hw He Hp) as (t & E & B). exists t, s. split; [exact E|]. split; [exact Hs|]. split; [apply grows_refl|].
    intros rho K _. split; [now apply ptag_plain|]. apply known_self. destruct v; easy.
  - cbn [encodeProperty]. destruct (Nat.eqb_spec q 0) as [->|Hq].
    + exists (leaf "Ref" (str "null") true), s. split; [reflexivity|]. split; [exact Hs|]. split; [apply grows_refl|]. intros rho K _. split; [now apply ptag_nil|now left].
    + destruct Hx as [->|(i & Hi & Hcr)]; [contradiction|].
      destruct (get_ref_inv s q i Hs Hi Hcr) as (r & h' & m' & k' & E & HI & HG & Hm & Hr & Hne & _). rewrite E. cbn [obind].
      eexists _, _. split; [reflexivity|]. split; [exact HI|]. split; [exact HG|]. intros rho K [F _]. cbn [re_refs] in F. destruct (F r q Hm) as [Hrho HK]. subst r.
      split; [|now right]. now apply ptag_ref.
  - cbn [encodeProperty]. set (hash := xe_hash env b). destruct (b64_lines_ok hash) as (t & E & Ht). rewrite E. cbn [obind].
    destruct Hs as (HR & HL & HF & HS1 & HS2).
    eexists _, _. split; [reflexivity|].
    set (sh := match mfind (re_shared s) hash with Some _ => re_shared s | None => mset (re_shared s) hash b end).
    assert (G : NoDup (map fst sh) /\ (forall k b, mfind sh k = Some b -> k = xe_hash env b /\ Pool b) /\
       (forall k b, mfind (re_shared s) k = Some b -> mfind sh k = Some b) /\ exists b', mfind sh hash = Some b').
    { unfold sh. destruct (mfind (re_shared s) hash) as [b'|] eqn:Ef.
      - split; [exact HS1|]. split; [exact HS2|]. split; [auto|eauto].
      - split; [now apply mset_keys|]. split; [|split].
        + intros k b' Hk. rewrite mfind_mset in Hk. destruct (beqb_spec hash k) as [<-|Hne]; [|now apply HS2]. apply Some_eq in Hk. now subst b'.
        + intros k b' Hk. rewrite mfind_mset. destruct (beqb_spec hash k) as [<-|Hne]; [congruence|exact Hk].
        + exists b. rewrite mfind_mset. now rewrite (proj2 (bytes_eqb_eq hash hash) eq_refl). }
    destruct G as (G1 & G2 & G3 & b' & G4). split; [split; [exact HR|split; [exact HL|split; [exact HF|split; [exact G1|exact G2]]]]|]. split; [split; [apply mono_refl|exact G3]|].
    intros rho K [_ F]. split; [|cbn [known snd]; eapply F; exact G4]. rewrite content_leaf_plain by apply Ht. now apply ptag_shared.
  - cbn [encodeProperty]. destruct o as [w|].
    2:{ eexists _, _. split; [reflexivity|]. split; [exact Hs|]. split; [apply grows_refl|]. intros rho K _. split; [now apply ptag_none|exact I]. }
    destruct w; try (eexists _, _; split; [reflexivity|]; split; [exact Hs|]; split; [apply grows_refl|]; intros rho K _; split; [|exact I];
      apply ptag_none; [exact Hn|discriminate]).
    cbn [wf_rvalue rtype] in Hw. destruct Hw as (-> & H1 & H2 & H3). rewrite (cframe_ok env Hfl) by assumption. cbn [obind].
    eexists _, _. split; [reflexivity|]. split; [exact Hs|]. split; [apply grows_refl|]. intros rho K _. split; [now apply ptag_some|exact I].
Qed.
Lemma encode_props_ok l : forall s, INV s -> Forall prop_ok l ->
  exists ts s', encode_props env rnd l s = OK (ts, s') /\ INV s' /\ grows s s' /\ forall rho K, fits rho K s' -> Forall2 (ptag_in rho K) l ts.
Proof.
  induction l as [|[name v] l IH]; intros s Hs Hl; [exists [], s; split; [reflexivity|]; split; [assumption|]; split; [apply grows_refl|constructor]|].
  apply Forall_cons_iff in Hl as [Hv Hl]. destruct (encode_prop_ok name v s Hs Hv) as (t & s1 & E1 & I1 & G1 & F1).
  destruct (IH s1 I1 Hl) as (ts & s2 & E2 & I2 & G2 & F2). cbn [encode_props]. rewrite E1. cbn [obind]. rewrite E2. cbn [obind].
  eexists _, s2. split; [reflexivity|]. split; [exact I2|]. split; [eapply grows_trans; eauto|]. intros rho K HF. constructor; [|now apply F2].
  apply F1. eapply fits_less; [exact G2|exact HF].
Qed.

Definition item_attrs (class ref : bytes) : list (bytes * bytes) :=
  (str "class", class) :: if noref then [] else [(str "referent", ref)].
Inductive itag (rho : ptr -> bytes) (K : bytes -> ptr -> Prop) : rtree -> tag -> Prop :=
| itag_node p ts i pts kids : hget h0 p = Some i -> K [] p -> IsEmptyReference (rho p) = false -> no_cr (rho p) = true ->
    Forall2 (ptag_in rho K) (sort_by fst (i_props i)) pts -> Forall2 (itag rho K) ts kids ->
    itag rho K (RNode p ts) (Tag (str "Item") [] (item_attrs (i_class i) (rho p)) false false None [] false (node (str "Properties") pts :: kids)).
Definition inst_ok (p : ptr) : Prop :=
  exists i, hget h0 p = Some i /\ no_cr (i_ref i) = true /\ Forall prop_ok (i_props i).
Lemma encode_tree_ok t : tree_at h0 t -> (forall p, In p (rnodes t) -> inst_ok p) -> forall fuel s, height t <= fuel -> INV s ->
  exists tg s', encodeInstance env rnd fuel noref (rroot t) s = OK (tg, s') /\ INV s' /\ grows s s' /\
    (exists r, mfind (re_refs s') r = Some (rroot t)) /\ forall rho K, fits rho K s' -> itag rho K t tg.
Proof.
  induction t as [p ts IH] using rtree_ind'. intros Ht Hok fuel s Hh Hs. inversion Ht as [p' ts' i Hi Hc Hts]; subst p' ts'.
  destruct fuel as [|fuel]; [cbn [height] in Hh; lia|]. cbn [rroot encodeInstance].
  destruct (Hok p) as (i1 & Hi1 & Hcr & Hprops); [now left|]. rewrite Hi in Hi1. apply Some_eq in Hi1. subst i1.
  destruct (get_ref_inv s p i Hs Hi Hcr) as (r & h' & m' & k' & E & HI & HG & Hm & Hr & Hne & i' & Hi' & Si). rewrite E. cbn [obind]. rewrite Hi'.
  destruct Si as (S1 & S2 & S3 & S4).
  rewrite <- S3. assert (Hprops' : Forall prop_ok (sort_by fst (i_props i))) by (eapply Permutation_Forall; [apply sort_perm|exact Hprops]).
  destruct (encode_props_ok _ _ HI Hprops') as (pts & s1 & E1 & I1 & G1 & F1). rewrite E1. cbn [obind].
  assert (L : forall us s1, Forall (fun t => In t ts) us -> Forall (tree_at h0) us -> INV s1 ->
     exists kids s2, encode_list (encodeInstance env rnd fuel noref) (map rroot us) s1 = OK (kids, s2) /\ INV s2 /\ grows s1 s2 /\
       forall rho K, fits rho K s2 -> Forall2 (itag rho K) us kids).
  { clear s1 E1 I1 G1 F1. induction us as [|u us IHu]; intros s1 Hin Hu I1; [exists [], s1; split; [reflexivity|]; split; [assumption|]; split; [apply grows_refl|constructor]|].
    apply Forall_cons_iff in Hin as [Hin Hin']. apply Forall_cons_iff in Hu as [Hu Hu'].
    rewrite Forall_forall in IH. destruct (IH u Hin Hu) with (fuel := fuel) (s := s1) as (tg & s2 & E2 & I2 & G2 & _ & F2); [| |exact I1|].
    { intros q Hq. apply Hok. cbn [rnodes]. right. apply in_flat_map. eauto. }
    { cbn [height] in Hh. apply le_S_n in Hh. etransitivity; [|exact Hh]. clear -Hin. induction ts as [|a l IHl]; [destruct Hin|]. cbn [fold_right].
      destruct Hin as [->|Hin]; [lia|]. specialize (IHl Hin). lia. }
    destruct (IHu s2 Hin' Hu' I2) as (kids & s3 & E3 & I3 & G3 & F3). cbn [map encode_list]. rewrite E2. cbn [obind]. rewrite E3. cbn [obind].
    eexists _, s3. split; [reflexivity|]. split; [exact I3|]. split; [eapply grows_trans; eauto|]. intros rho K HF. constructor; [|now apply F3].
    apply F2. eapply fits_less; [exact G3|exact HF]. }
  destruct (L ts s1) as (kids & s2 & E2 & I2 & G2 & F2); [now apply Forall_forall|exact Hts|exact I1|].
  rewrite <- S4, Hc, E2. cbn [obind]. eexists _, s2. split; [reflexivity|]. split; [exact I2|].
  assert (G : grows (Rest h' m' k' (re_shared s)) s2) by (eapply grows_trans; [exact G1|exact G2]).
  split; [eapply grows_trans; [exact HG|exact G]|]. split; [exists r; apply G; exact Hm|].
  intros rho K HF. pose proof (proj1 (fits_less _ _ _ _ G HF)) as HF0. cbn [re_refs] in HF0. destruct (HF0 r p Hm) as [Hrho HK]. subst r.
  assert (Et : forall a b, add_tags (if noref then with_attr (SetAttrValue (t_attr (newItem (i_class i') a pts)) (str "referent") []) (newItem (i_class i') a pts)
      else newItem (i_class i') a pts) b = Tag (str "Item") [] (item_attrs (i_class i') a) false false None [] false (node (str "Properties") pts :: b)).
  { intros a b. unfold item_attrs. destruct noref; reflexivity. }
  rewrite Et, <- S1. constructor; auto. apply F1. eapply fits_less; [exact G2|exact HF].
Qed.
Lemma encode_forest_ok ts : Forall (tree_at h0) ts -> (forall p, In p (fnodes ts) -> inst_ok p) -> forall fuel s, (forall t, In t ts -> height t <= fuel) -> INV s ->
  exists tgs s', encode_list (encodeInstance env rnd fuel noref) (map rroot ts) s = OK (tgs, s') /\ INV s' /\ grows s s' /\
    forall rho K, fits rho K s' -> Forall2 (itag rho K) ts tgs.
Proof.
  induction ts as [|t ts IH]; intros Ht Hok fuel s Hh Hs; [exists [], s; split; [reflexivity|]; split; [assumption|]; split; [apply grows_refl|constructor]|].
  apply Forall_cons_iff in Ht as [Ht Hts].
  destruct (encode_tree_ok t Ht) with (fuel := fuel) (s := s) as (tg & s1 & E1 & I1 & G1 & _ & F1); [|apply Hh; now left|exact Hs|].
  { intros p Hp. apply Hok. unfold fnodes. cbn [flat_map]. apply in_or_app. now left. }
  destruct (IH Hts) with (fuel := fuel) (s := s1) as (tgs & s2 & E2 & I2 & G2 & F2); [|intros u Hu; apply Hh; now right|exact I1|].
  { intros p Hp. apply Hok. unfold fnodes. cbn [flat_map]. apply in_or_app. now right. }
  cbn [map encode_list]. rewrite E1. cbn [obind]. rewrite E2. cbn [obind]. eexists _, s2. split; [reflexivity|]. split; [exact I2|].
  split; [eapply grows_trans; eauto|]. intros rho K HF. constructor; [|now apply F2]. apply F1. eapply fits_less; [exact G2|exact HF].
Qed.
Lemma INV_start : INV (Rest h0 [] 0 []).
Proof.
  split; [apply RI_start|]. split; [reflexivity|]. split; [|split; [constructor|discriminate]].
  intros q i Hi. exists i. cbn [re_heap] in Hi. split; [exact Hi|now left].
Qed.
End Trees.
