(** SpecXmlResave.v - specification side: which values an XML file keeps the
    text of, when it is loaded and saved. *)
From Verif Require Import Base RbxlValues RbxValues Tree SpecValues SpecTree SpecCodec XmlText XmlDoc XmlCodec SpecXml XmlFloats XmlFloatsFit SpecXmlValues.

(** Floats written with six digits, doubles written with nine: normal numbers,
    and those that are read as themselves. *)
Definition text6 (fl : floats) (f : N) : Prop := normal32 f \/ again6 fl f = f.
Definition text9 (fl : floats) (f : N) : Prop := normal64 f \/ again64 fl f = f.
(** Less than [kept] (SpecXmlValues.v): a value may come back as another one
    that has the same text.  [six] and [nine] say which floats and doubles have
    a text that is the text of the number it is read as. *)
Definition text_kept (six nine : N -> Prop) (v : rvalue) : Prop :=
  match v with
  | RString s | RProtectedString s | RContent s => cr_leading s
  | RBrickColor n | RToken n => (n < 2 ^ 31)%N
  | RDouble x => nine x
  | RNumberSequence ks => Forall (fun k => six (ns_time k) /\ six (ns_value k) /\ six (ns_env k)) ks
  | RColorSequence ks => Forall (fun k => six (cs_time k) /\ six (cs_r k) /\ six (cs_g k) /\ six (cs_b k) /\ six (cs_env k)) ks
  | RNumberRange a b => six a /\ six b
  | ROptional _ (Some (RCFrame _ _)) => True
  | ROptional _ (Some _) => False
  | RFont family w style cached => cr_leading family /\ cr_leading cached /\ (w < 2 ^ 15)%N /\ (style = x00 \/ style = x01)
  | _ => True
  end.
(** Trees whose text is kept: the values, the classes and the metadata, and
    references point to instances of the tree. *)
Record text_tree (fl : floats) (h : heap) (nodes : list ptr) (r : root) : Prop := TextTree {
  tt_value : forall x name v, inst_in h nodes x -> mfind (i_props x) name = Some v -> text_kept (text6 fl) (text9 fl) v;
  tt_class : forall x, inst_in h nodes x -> no_cr (i_class x) = true;
  tt_inside : forall x name q, inst_in h nodes x -> mfind (i_props x) name = Some (RReference q) -> q <> 0 -> In q nodes;
  tt_meta : forall k v, In (k, v) (r_metadata r) -> no_cr k = true /\ cr_leading v }.
