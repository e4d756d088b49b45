(** SpecConvert.v - specification side: trees that are saved in one format,
    loaded, saved in the other format and loaded. *)
From Verif Require Import Base RbxlValues RbxValues Tree SpecValues SpecTree SpecCodec XmlText XmlDoc XmlCodec SpecXml XmlFloats SpecXmlValues.

(** What both formats can hold: values that the XML format keeps ([kept],
    SpecXmlValues.v), and names without carriage returns. *)
Record both_formats (six nine : N -> Prop) (h : heap) (nodes : list ptr) (r : root) : Prop := {
  bf_value : forall x name v, inst_in h nodes x -> mfind (i_props x) name = Some v -> kept six nine v;
  bf_name : forall x name v, inst_in h nodes x -> mfind (i_props x) name = Some v -> no_cr name = true;
  bf_class : forall x, inst_in h nodes x -> no_cr (i_class x) = true;
  bf_meta : forall k v, In (k, v) (r_metadata r) -> no_cr k = true /\ cr_leading v }.
(** The binary format makes strings of binary strings. *)
Definition plain_binary (h : heap) (nodes : list ptr) : Prop :=
  forall x name s, inst_in h nodes x -> mfind (i_props x) name = Some (RBinaryString s) -> cr_leading s.
(** What the tree is then: h' holds the listed instances, phi p for p, and
    nothing else.  Classes and children are kept, services are not; a property
    of an instance is what the binary format makes of it: [written_prop],
    [carried] and [filled] are those of the binary format alone (SpecCodec.v). *)
Record converted (place : bool) (h : heap) (nodes : list ptr) (phi : ptr -> ptr) (h' : heap) : Prop := {
  cv_size : length h' = length nodes;
  cv_inj : forall p q, In p nodes -> In q nodes -> phi p = phi q -> p = q;
  cv_outside : forall p, ~ In p nodes -> phi p = 0;
  cv_inst : exists fs,
    (forall class name s, written_prop place h nodes class name (RSharedString s) -> In fs (shared_strings h nodes)) /\
    forall p x, In p nodes -> hget h p = Some x -> exists x', hget h' (phi p) = Some x' /\
      i_class x' = i_class x /\ i_service x' = false /\ i_children x' = map phi (i_children x) /\
      (forall name v, mfind (i_props x) name = Some v -> written_prop place h nodes (i_class x) name v ->
        exists v', mfind (i_props x') name = Some v' /\ carried phi v v') /\
      (forall name w, mfind (i_props x) name = None -> written_prop place h nodes (i_class x) name w ->
        exists v', mfind (i_props x') name = Some v' /\ filled (phi (hd 0 nodes)) fs w v') /\
      (forall name, (forall w, ~ written_prop place h nodes (i_class x) name w) -> mfind (i_props x') name = None) }.
(** The XML format does not hold which instances are services. *)
Definition no_services (h : heap) (nodes : list ptr) : Prop := forall x, inst_in h nodes x -> i_service x = false.
