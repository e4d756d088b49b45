(** PropXmlText.v - C72: the texts that the XML reader accepts, and what it
    makes of them. *)
From Verif Require Import Base XmlText XmlDoc XmlTotal XmlCodec SpecXmlText SpecXmlErrors XmlGrammarTags XmlLines.

(** ** C72: the reader accepts exactly the documents of the grammar *)
Theorem C72_grammar : forall input end_ d, ReadFrom input end_ = OK d <-> document input d.
Proof. intros input end_ d. apply ReadFrom_grammar. Qed.

(** Every other text is an error, not a panic and not an endless loop. *)
Theorem C72_otherwise_error : forall input end_,
  (forall d, ~ document input d) <-> exists e, ReadFrom input end_ = Err e.
Proof.
  intros input end_. split.
  - intros H. destruct (ReadFrom_total input end_) as [[d E]|H']; [|exact H']. elim (H d). now apply (C72_grammar input end_).
  - intros [e E] d H. apply (C72_grammar input end_) in H. congruence.
Qed.
(** The grammar is unambiguous. *)
Theorem C72_unambiguous : forall input d d', document input d -> document input d' -> d = d'.
Proof.
  intros input d d' H H'. apply (C72_grammar input XEOF) in H. apply (C72_grammar input XEOF) in H'. congruence.
Qed.
(** What is read does not depend on how the reader fails after the last byte. *)
Theorem C72_end_irrelevant : forall input e e' d, ReadFrom input e = OK d -> ReadFrom input e' = OK d.
Proof. intros input e e' d H. apply C72_grammar. now apply C72_grammar in H. Qed.
(** Decode of the format fails exactly on the other texts. *)
Theorem C72_decode : forall env discard input end_,
  (exists e, xml_decode env discard input end_ = Err e) <-> (forall d, ~ document input d).
Proof.
  intros env discard input end_. rewrite (C72_otherwise_error input end_). unfold xml_decode. split.
  - intros [e E]. destruct (ReadFrom input end_) as [d|x| |]; [|eauto|discriminate E..].
    destruct (codec_read env discard d) as [r|[]| |]; discriminate E.
  - intros [e ->]. eauto.
Qed.

(** ** Examples *)
Local Open Scope string_scope.
Local Open Scope list_scope.
Definition quotes (s : String.string) : bytes := map (fun b => if Byte.eqb b x60 then x22 else b) (str s).
Ltac read_doc := apply (C72_grammar _ XEOF); vm_compute; reflexivity.
Ltac not_doc := apply (C72_otherwise_error _ XEOF); vm_compute; eexists; reflexivity.
(** The element [b] is dropped with a warning, the end tag of [c] has another
    name, what follows is kept. *)
Definition sample : bytes :=
  quotes "<roblox version=`+4`><a ><![CDATA[<]]>t<b x = `1` / ><c></d ></a></roblox>tail".
Example C72_sample : document sample
  (Doc [] [] (str "tail") false
     (Some (Tag (str "roblox") (str "roblox") [(str "version", str "+4")] false false None [] false
        [Tag (str "a") (str "a") [] false false (Some (str "<")) (str "t") false
           [Tag (str "c") (str "d") [] false false None [] false []]]))
     [XSyntax "expected /> in element" 1]).
Proof. read_doc. Qed.
(** White space under the root tag gives the indentation; CR LF is one line
    end; references; a comment is taken as it is; the element [z] is dropped,
    and its text up to the second ">" with it. *)
Definition sample2 : bytes :=
  [x20] ++ quotes "<roblox version=`4`><![CDATA[]]>" ++ [x0a; x20; x09] ++
  quotes "<!-- &lt; --><a b=`&lt;&#65;&#x42;&#300;&nosuch;`>x" ++ [x0d; x0a; x0d] ++
  quotes "y<z b>gone>here</z><e /></a>" ++ [x0a] ++ quotes "</roblox>" ++ [x0a].
Example C72_sample2 : document sample2
  (Doc [x20] [x09] [x0a] false
     (Some (Tag (str "roblox") (str "roblox") [(str "version", str "4")] false false (Some []) [] false
        [Tag [] [] [] false true None (str " &lt; ") false [];
         Tag (str "a") (str "a") [(str "b", str "<AB&#300;&nosuch;")] false false None (str "x" ++ [x0a; x0a] ++ str "y") true
           [Tag (str "e") [] [] true false None [] false []]]))
     [XSyntax "attribute name without = in element" 3]).
Proof. read_doc. Qed.

(** ** Well-formed XML that is not accepted, or not understood *)

(** An empty element whose name touches the slash. *)
Theorem C72_empty_tag_refuted : forall d, ~ document (quotes "<roblox version=`4`><a/></roblox>") d.
Proof. not_doc. Qed.
(** A document that starts with an XML declaration. *)
Theorem C72_declaration_refuted : forall rest d, ~ document (str "<?" ++ rest) d.
Proof.
  intros rest d H. change (str "<?" ++ rest) with (x3c :: x3f :: rest) in H.
  assert (A : forall p r0, skips p (x3c :: x3f :: rest) (x3c :: r0) -> r0 = x3f :: rest).
  { intros p r0 (E & Hw & _). destruct p as [|a p]; [now injection E|]. injection E as <- _. inversion Hw as [|? ? W]; subst.
    cbn in W. decompose [or] W; try discriminate; contradiction. }
  assert (B : forall n l f ws r, start_tag (x3c :: x3f :: rest) (x3f :: rest) (n, l, f, ws) r -> root_ok n l -> False).
  { intros n l f ws r Hs [-> _]. inversion Hs as [n' raw r' l' f' ws' r'' Hr Hn|]; subst. destruct Hr as (E & _). discriminate E. }
  destruct H as [p r0 t r' H0 Hc|p r0 n l k ws r' H0 Hs Hr|p r0 n l k ws r1 w1 r2 cd r3 w2 r4 p' i' tx r5 ts en ws' r' H0 Hs Hr];
    apply A in H0; subst r0; [|exact (B _ _ _ _ _ Hs Hr)..].
  inversion Hc.
Qed.
(** A "&" that is not a reference takes the bytes of a name that follow: here
    the quote that should end the attribute. *)
Theorem C72_ampersand_refuted : forall d, ~ document (quotes "<roblox version=`4`><a b=`&` ></a></roblox>") d.
Proof. not_doc. Qed.
(** Attributes in single quotes; CDATA after text; processing instructions. *)
Theorem C72_single_quote_refuted : forall d, ~ document (str "<roblox version='4'></roblox>") d.
Proof. not_doc. Qed.
Theorem C72_late_cdata_refuted : forall d, ~ document (quotes "<roblox version=`4`><a>x<![CDATA[y]]></a></roblox>") d.
Proof. not_doc. Qed.
(** And accepted although it is not well-formed: end tags are not compared. *)
Theorem C72_end_name_refuted : document (quotes "<roblox version=`4`><a></b></c>")
  (Doc [] [] [] false
     (Some (Tag (str "roblox") (str "c") [(str "version", str "4")] false false None [] false
        [Tag (str "a") (str "b") [] false false None [] false []])) []).
Proof. read_doc. Qed.

(** Indentation is looked for only after a CDATA section under the root tag:
    the white space after the root tag itself has been skipped by then.  So the
    layout of an indented document is not kept (document.go:500-524). *)
Theorem C72_indent_refuted : forall input d t,
  document input d -> doc_root d = Some t -> t_cdata t = None -> doc_indent d = [].
Proof.
  intros input d t H Ht Hn.
  destruct H as [p r0 u rest H0 Hc|p r0 n l k ws rest H0 Hs Hr|p r0 n l k ws r1 w1 r2 cd r3 w2 r4 p' i' tx r5 ts en ws' rest H0 Hs Hr H1 Hcd H2 Hl Htx Hk];
    [reflexivity..|]. cbn [doc_root doc_indent] in *. destruct k; [|discriminate Ht]. injection Ht as <-. cbn [t_cdata] in Hn. subst cd.
  inversion Hcd; subst. destruct H1 as (_ & _ & H1), H2 as (E2 & W2 & _). destruct w2 as [|a w2].
  2:{ subst r3. cbn in H1. inversion W2; subst. contradiction. }
  assert (G : forall w y, layout p w y -> w = [] -> snd y = []).
  { intros w y [w' Hw|w' i (u & E & _)|w' x (u & E & _)] Ew; [reflexivity|subst w'; destruct u; discriminate Ew..]. }
  exact (G _ _ Hl eq_refl).
Qed.
Example C72_indent_witness : exists d t,
  document (quotes "<roblox version=`4`>" ++ [x0a; x09] ++ str "<a></a>" ++ [x0a] ++ str "</roblox>") d /\ doc_root d = Some t /\ t_cdata t = None.
Proof. eexists _, _. split; [read_doc|]. now split. Qed.

(** ** C73: lines in the errors of the reader *)
Theorem C73_lines : forall input end_ e ws, ReadFrom input end_ = Err (e, ws) ->
  (e = end_ \/ syntax_error input e \/ unclosed input e) /\ Forall (syntax_error input) ws.
Proof. intros input end_ e ws H. destruct (ReadFrom_lines _ _ _ _ H) as (H1 & H2 & _). now split. Qed.
(** The same for Decode of the format. *)
Theorem C73_decode_lines : forall env discard input end_ e ws, xml_decode env discard input end_ = Err (e, ws) ->
  (e = end_ \/ syntax_error input e \/ unclosed input e) /\ Forall (syntax_error input) ws.
Proof.
  intros env discard input end_ e ws H. apply (C73_lines input end_). unfold xml_decode in H.
  destruct (ReadFrom input end_) as [d|x| |]; [|congruence|discriminate H..]. destruct (codec_read env discard d) as [r|[]| |]; discriminate H.
Qed.
(** io.EOF itself is returned only where the input stops before the first tag
    or right after a start tag. *)
Theorem C73_eof : forall input end_ ws, ReadFrom input end_ = Err (XEOF, ws) -> stops_early input.
Proof. intros input end_ ws H. destruct (ReadFrom_lines _ _ _ _ H) as (_ & _ & H3). now apply H3. Qed.

(** An error on line 3, after a warning on line 2. *)
Example C73_witness : ReadFrom (quotes "<roblox version=`4`>" ++ [x0a] ++ str "<a b></a>" ++ [x0d; x0a] ++ str "]]>") XEOF =
  Err (XSyntax "unexpected ']]>'" 3, [XSyntax "attribute name without = in element" 2]).
Proof. vm_compute. reflexivity. Qed.
Example C73_unclosed_witness : ReadFrom (quotes "<roblox version=`4`>" ++ [x0a] ++ str "<a>" ++ [x0d; x0a] ++ str "text") XEOF = Err (XUnmatched 2, []).
Proof. vm_compute. reflexivity. Qed.
(** A truncated document is io.EOF, not an error of syntax, in these cases. *)
Example C73_eof_blank : ReadFrom [x20; x0a] XEOF = Err (XEOF, []).
Proof. vm_compute. reflexivity. Qed.
Example C73_eof_tag : ReadFrom (quotes "<roblox version=`4`><Item> <![CD") XEOF = Err (XEOF, []).
Proof. vm_compute. reflexivity. Qed.
(** An error of the byte reader between the tags is lost: the innermost open tag
    is blamed (document.go:546-549). *)
Theorem C73_reader_error_refuted : forall n, ReadFrom (quotes "<roblox version=`4`>text") (XReader n) = Err (XUnmatched 1, []).
Proof. intros n. vm_compute. reflexivity. Qed.

Print Assumptions C72_grammar.
Print Assumptions C72_otherwise_error.
Print Assumptions C72_unambiguous.
Print Assumptions C72_end_irrelevant.
Print Assumptions C72_decode.
Print Assumptions C72_declaration_refuted.
Print Assumptions C73_lines.
Print Assumptions C73_decode_lines.
Print Assumptions C73_eof.
Print Assumptions C73_reader_error_refuted.
