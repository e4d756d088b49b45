(** SpecXmlErrors.v - positions in the errors of the XML reader. *)
From Verif Require Import Base XmlDoc SpecXmlText.

Section Input.
Variable input : bytes.
(** The line, counted from 1, of some position of the input. *)
Definition a_line (l : Z) : Prop := exists p s, input = p ++ s /\ l = (1 + Z.of_nat (newlines p))%Z.
(** The line on which some tag is closed by ">". *)
Definition a_tag_line (l : Z) : Prop := exists p s, input = p ++ x3e :: s /\ l = (1 + Z.of_nat (newlines p))%Z.
Definition syntax_error (e : xerr) : Prop := exists msg l, e = XSyntax msg l /\ a_line l.
Definition unclosed (e : xerr) : Prop := exists l, e = XUnmatched l /\ a_tag_line l.
(** The input stops before its first tag, or where a CDATA section may start:
    after a start tag and white space. *)
Definition stops_early : Prop :=
  Forall white input \/
  exists p w q r, input = p ++ x3e :: w ++ q /\ Forall white w /\ cdata_mark = q ++ r /\ r <> [].
End Input.
