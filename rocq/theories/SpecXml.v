(** SpecXml.v - specification side for the XML format. *)
From Verif Require Import Base RbxlValues RbxValues Tree SpecValues SpecTree SpecCodec XmlText XmlDoc XmlCodec.

(** A line end in XML text: "\r\n" and "\r" are read as "\n". *)
Fixpoint nl (s : bytes) : bytes :=
  match s with
  | [] => []
  | c :: r => if Byte.eqb c x0d then x0a :: match r with c' :: r' => if Byte.eqb c' x0a then nl r' else nl r | [] => [] end
              else c :: nl r
  end.
(** White space at the start of a text is kept as it is. *)
Fixpoint nl_text (s : bytes) : bytes :=
  match s with
  | c :: r => if isSpace c then c :: nl_text r else nl s
  | [] => []
  end.
(** No carriage return. *)
Definition no_cr (s : bytes) : bool := forallb (fun b => negb (Byte.eqb b x0d)) s.
(** White space that the parser skips. *)
Definition blank (s : bytes) : Prop := forallb isSpace s = true.
(** Letters, digits and colons: names that cannot be mistaken for markup. *)
Definition name_char (b : byte) : bool :=
  let n := b2N b in
  ((0x30 <=? n) && (n <=? 0x3a) || (0x41 <=? n) && (n <=? 0x5a) || (0x61 <=? n) && (n <=? 0x7a))%N.
Definition good_name (n : bytes) : bool := nonempty n && forallb name_char n.
(** Tags with a start name, attributes, text and subtags only. *)
Fixpoint plain_tag (t : tag) : bool :=
  let 'Tag start end_ attr empty comment cdata tx _ tags := t in
  good_name start && negb (nonempty end_) && forallb (fun a => good_name (fst a)) attr && negb empty && negb comment &&
  match cdata with None => true | _ => false end && forallb plain_tag tags.
(** A tag without the parts that carry no data: the name in the end tag and
    the indentation flag. *)
Fixpoint bare (t : tag) : tag :=
  let 'Tag start _ attr empty comment cdata tx _ tags := t in
  Tag start [] attr empty comment cdata tx false (map bare tags).
(** What is left of a plain tag after writing and reading. *)
Fixpoint settled (t : tag) : tag :=
  let 'Tag start _ attr empty comment cdata tx _ tags := t in
  Tag start [] (map (fun a => (fst a, nl (snd a))) attr) empty comment cdata (nl_text tx) false (map settled tags).

(** ** Values *)

(** What is assumed of the text of numbers with a fractional part: it is one
    word and is read as some number. *)
Definition word (t : bytes) : Prop := t <> [] /\ forallb (fun b => negb (isSpace b)) t = true.
Record floats_ok (fl : floats) : Prop := FloatsOk {
  fo_32 : forall prec f, (prec = 6 \/ prec = 9)%N -> f32 f ->
    exists t g, encodeFloatPrec fl prec f = OK t /\ word t /\ fl_parse32 fl t = Some g;
  fo_64 : forall f, f64 f -> word (encodeDouble fl f) /\ exists g, fl_parse64 fl (encodeDouble fl f) = Some g }.
(** The float read from the text with this many digits, the double read from
    its text with nine digits. *)
Definition again32 (fl : floats) (prec f : N) : N :=
  match encodeFloatPrec fl prec f with
  | OK t => match fl_parse32 fl t with Some g => g | None => 0%N end
  | _ => 0%N
  end.
Definition again9 fl := again32 fl 9.
Definition again6 fl := again32 fl 6.
Definition again64 (fl : floats) (f : N) : N :=
  match fl_parse64 fl (encodeDouble fl f) with Some g => g | None => 0%N end.
Definition vec3_map (g : N -> N) (v : vec3) : vec3 := Vec3 (g (v3x v)) (g (v3y v)) (g (v3z v)).
Definition int32_max : N := (2 ^ 31 - 1)%N.
(** The type that the text says an optional holds. *)
Definition named_type (t : Type_) : Type_ :=
  if existsb (fun e => N.eqb t (fst e)) canon_tags then t else TypeInvalid.
(** What becomes of a value that is not a reference or shared string; [None]
    is a value that cannot be read. *)
Definition xml_value (fl : floats) (v : rvalue) : option rvalue :=
  let f := again9 fl in let g := again6 fl in
  match v with
  | RString s => Some (RString (nl_text s))
  | RProtectedString s => Some (RProtectedString (nl_text s))
  | RContent s => Some (RContent (nl_text s))
  | RBrickColor n => Some (RInt (Z.of_N (N.min n int32_max)))                  (* another type *)
  | RToken n => Some (RToken (N.min n int32_max))
  | RFloat x => Some (RFloat (f x))
  | RDouble x => Some (RDouble (again64 fl x))
  | RCFrame p rot => Some (RCFrame (vec3_map f p) (map f rot))
  | RColor3 r g b => Some (RColor3 (f r) (f g) (f b))
  | RRay o d => Some (RRay (vec3_map f o) (vec3_map f o))                      (* the direction is lost *)
  | RUDim s o => Some (RUDim (f s) o)
  | RUDim2 xs xo ys yo => Some (RUDim2 (f xs) xo (f ys) yo)
  | RVector2 x y => Some (RVector2 (f x) (f y))
  | RVector3 v => Some (RVector3 (vec3_map f v))
  | RNumberSequence ks => Some (RNumberSequence (map (fun k => NSK (g (ns_time k)) (g (ns_value k)) (g (ns_env k))) ks))
  | RColorSequence ks =>
      Some (RColorSequence (map (fun k => CSK (g (cs_time k)) (g (cs_r k)) (g (cs_g k)) (g (cs_b k)) (g (cs_env k))) ks))
  | RNumberRange a b => Some (RNumberRange (g a) (g b))
  | RRect a b c d => Some (RRect (f a) (f b) (f c) (f d))
  | RPhysicalProperties true a b c d e => Some (RPhysicalProperties true (f a) (f b) (f c) (f d) (f e))
  | RPhysicalProperties false _ _ _ _ _ => Some (RPhysicalProperties false 0 0 0 0 0)
  | ROptional t (Some (RCFrame p rot)) => Some (ROptional t (Some (RCFrame (vec3_map f p) (map f rot))))
  | ROptional t _ => Some (ROptional (named_type t) None)                      (* the value is lost *)
  | RFont family w style cached =>
      if (w <? 2 ^ 15)%N then
        if (b2N style <=? 1)%N then Some (RFont (nl_text family) w style (nl_text cached)) else None
      else Some (RFont (nl_text family) (2 ^ 15 - 1) x00 (nl_text cached))     (* the style is lost *)
  | v => Some v
  end.
(** A value that cannot be read is a font; it is dropped or becomes the zero
    font. *)
Definition xml_value_or (fl : floats) (discard : bool) (v : rvalue) : option rvalue :=
  match xml_value fl v with Some v => Some v | None => if discard then None else Some (RFont [] 0 x00 []) end.
(** Values for which this is so: text with "]]>" is written in a way that ends
    it early. *)
Definition enclosed (v : rvalue) : bool :=
  match v with RProtectedString s => negb (has_cdata_end s) | _ => true end.
Definition self_contained (v : rvalue) : Prop := match v with RReference _ | RSharedString _ => False | _ => True end.

(** ** Trees *)

(** What can be written so that it can be read: references, property names and
    the references of instances that properties refer to have no carriage
    returns, properties have different names, values are ones that Go programs
    hold, protected strings do not have "]]>". *)
Record xml_storable (h : heap) (nodes : list ptr) : Prop := XmlStorable {
  xs_inst : forall x, inst_in h nodes x -> no_cr (i_ref x) = true /\ NoDup (map fst (i_props x));
  xs_prop : forall x name v, inst_in h nodes x -> mfind (i_props x) name = Some v ->
    no_cr name = true /\ wf_rvalue v /\ enclosed v = true;
  xs_target : forall x name q, inst_in h nodes x -> mfind (i_props x) name = Some (RReference q) -> q <> 0 ->
    exists y, hget h q = Some y /\ no_cr (i_ref y) = true }.
(** What becomes of a property when instance p becomes [phi p]; without
    referents all references are lost. *)
Definition xml_prop (fl : floats) (discard noref : bool) (phi : ptr -> ptr) (v : rvalue) : option rvalue :=
  match v with
  | RReference q => Some (RReference (if noref then 0 else phi q))
  | RSharedString s => Some (RSharedString s)
  | v => xml_value_or fl discard v
  end.
(** h' holds the images of the listed instances of h, phi p for p, and nothing
    else; [named] is h with the references that were written. *)
Record xml_image (fl : floats) (discard noref : bool) (h named : heap) (nodes : list ptr) (phi : ptr -> ptr) (h' : heap) : Prop := {
  xi_size : length h' = length nodes;
  xi_inj : forall p q, In p nodes -> In q nodes -> phi p = phi q -> p = q;
  xi_outside : forall p, ~ In p nodes -> phi p = 0;
  xi_inst : forall p x, In p nodes -> hget h p = Some x ->
    exists x' y, hget h' (phi p) = Some x' /\ hget named p = Some y /\
      i_class x' = nl (i_class x) /\ i_service x' = false /\ i_children x' = map phi (i_children x) /\
      i_ref x' = (if noref then [] else i_ref y) /\
      forall name, mfind (i_props x') name =
        match mfind (i_props x) name with Some v => xml_prop fl discard noref phi v | None => None end }.
