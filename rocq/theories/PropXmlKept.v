(** PropXmlKept.v - trees that survive the XML format unchanged. *)
From Verif Require Import Base RbxlValues RbxValues Tree SpecValues SpecTree SpecCodec XmlText XmlDoc XmlCodec SpecXml XmlFloats XmlFloatsFit SpecXmlValues PropXmlValues PropXml XmlResave.

Lemma kept_prop fl discard phi v : strconv_ok fl -> wf_rvalue v -> kept (six fl) (nine fl) v -> xml_prop fl discard false phi v = Some (moved phi v).
Proof.
  intros SC Hw Hk. apply (C53_kept fl SC v Hw) in Hk. destruct v; cbn [xml_prop moved]; try reflexivity; unfold xml_value_or; now rewrite Hk.
Qed.
(** ** C50: trees of values that are kept come back the same *)
Theorem C50_kept : forall env rnd fuel e h ts r ws out h1,
  strconv_ok (xe_fl env) -> (forall k, length (rnd k) = 16) -> never_repeats (length h) rnd ->
  forest_at h ts -> r_instances r = map rroot ts -> xml_storable h (fnodes ts) -> length h <= fuel ->
  blank (x_prefix e) -> blank (x_indent e) -> x_noroot e = false -> o_noref (x_opts e) = false ->
  no_collision (xe_hash env) h (fnodes ts) ->
  NoDup (map fst (r_metadata r)) -> Forall (fun kv => no_cr (fst kv) = true) (r_metadata r) ->
  xml_encode fuel env rnd e h (Some r) = OK (ws, out, h1) ->
  (forall x name v, inst_in h (fnodes ts) x -> mfind (i_props x) name = Some v -> kept (six (xe_fl env)) (nine (xe_fl env)) v) ->
  forall discard, exists phi h' mt,
    xml_decode env discard out XEOF = OK (Root (map phi (r_instances r)) mt, h', []) /\ length h' = length (fnodes ts) /\
    (forall p q, In p (fnodes ts) -> In q (fnodes ts) -> phi p = phi q -> p = q) /\ (forall p, ~ In p (fnodes ts) -> phi p = 0) /\
    forall p x, In p (fnodes ts) -> hget h p = Some x ->
      exists x', hget h' (phi p) = Some x' /\ i_class x' = nl (i_class x) /\ i_children x' = map phi (i_children x) /\
        forall name, mfind (i_props x') name = option_map (moved phi) (mfind (i_props x) name).
Proof.
  intros env rnd fuel e h ts r ws out h1 SC Hrnd Hnr Hf Hroots Hst Hfuel Hp Hi Hn Hnoref Hcol Hmd Hmk HE Hk discard.
  destruct (C50_roundtrip env rnd fuel e h ts r ws out h1 (strconv_floats_ok _ SC) Hrnd Hnr Hf Hroots Hst Hfuel Hp Hi Hn Hcol Hmd Hmk HE discard XEOF) as (phi & h' & mt & D & [I1 I2 I3 I4] & _).
  exists phi, h', mt. split; [exact D|]. split; [exact I1|]. split; [exact I2|]. split; [exact I3|]. intros p x Hin Hx.
  destruct (I4 p x Hin Hx) as (x' & y & E1 & _ & E3 & _ & E5 & _ & E7). exists x'. split; [exact E1|]. split; [exact E3|]. split; [exact E5|].
  intros name. rewrite E7. destruct (mfind (i_props x) name) as [v|] eqn:Ev; [|reflexivity]. cbn [option_map]. rewrite Hnoref. apply kept_prop; [exact SC| |].
  - apply (xs_prop _ _ Hst x name v); [now exists p|exact Ev].
  - apply (Hk x name v); [now exists p|exact Ev].
Qed.
(** ** C52: text *)
(** A string comes back the same exactly when its carriage returns are only
    among white space at the start; the others become line feeds. *)
Theorem C52_text : forall env rnd fuel e h ts r ws out h1,
  floats_ok (xe_fl env) -> (forall k, length (rnd k) = 16) -> never_repeats (length h) rnd ->
  forest_at h ts -> r_instances r = map rroot ts -> xml_storable h (fnodes ts) -> length h <= fuel ->
  blank (x_prefix e) -> blank (x_indent e) -> x_noroot e = false ->
  no_collision (xe_hash env) h (fnodes ts) ->
  NoDup (map fst (r_metadata r)) -> Forall (fun kv => no_cr (fst kv) = true) (r_metadata r) ->
  xml_encode fuel env rnd e h (Some r) = OK (ws, out, h1) ->
  forall discard p x name s, In p (fnodes ts) -> hget h p = Some x -> mfind (i_props x) name = Some (RString s) ->
  exists root' h' q x' s', xml_decode env discard out XEOF = OK (root', h', []) /\ hget h' q = Some x' /\ mfind (i_props x') name = Some (RString s') /\
    s' = nl_text s /\ (s' = s <-> cr_leading s) /\ length s' <= length s /\ nl_text s' = s'.
Proof.
  intros env rnd fuel e h ts r ws out h1 Hfl Hrnd Hnr Hf Hroots Hst Hfuel Hp Hi Hn Hcol Hmd Hmk HE discard p x name s Hin Hx Hs.
  destruct (C50_roundtrip env rnd fuel e h ts r ws out h1 Hfl Hrnd Hnr Hf Hroots Hst Hfuel Hp Hi Hn Hcol Hmd Hmk HE discard XEOF) as (phi & h' & mt & D & [I1 I2 I3 I4] & _).
  destruct (I4 p x Hin Hx) as (x' & y & E1 & _ & _ & _ & _ & _ & E7). exists (Root (map phi (r_instances r)) mt), h', (phi p), x', (nl_text s). split; [exact D|]. split; [exact E1|].
  split; [rewrite E7, Hs; reflexivity|]. split; [reflexivity|]. split; [apply nl_text_keeps|]. split; [|apply nl_text_twice].
  clear. induction s as [|c s IH]; [cbn; lia|]. cbn [nl_text]. destruct (isSpace c); [cbn [length]; lia|]. apply (proj2 (nl_out (c :: s))).
Qed.
(** These texts: leading white space with a carriage return is kept, a line
    end of two characters is not. *)
Example C52_examples : cr_leading (x0d :: x0a :: str "  text") /\ ~ cr_leading (str "a" ++ [x0d; x0a]) /\ nl_text (str "a" ++ [x0d; x0a] ++ str "b" ++ [x0d]) = str "a" ++ [x0a] ++ str "b" ++ [x0a].
Proof. split; [vm_compute; intuition discriminate|]. split; [vm_compute; tauto|reflexivity]. Qed.
