(** SpecXmlText.v - the language that the XML reader accepts, as a grammar,
    and what each text of it means.

    Nothing here refers to the reader.  Every relation has the shape
    [R raw value rest]: the text [raw] begins with a phrase that means [value],
    and [rest] is what follows the phrase. *)
From Verif Require Import Base XmlDoc.

Definition white (b : byte) : Prop := In b [x20; x0d; x0a; x09; x0c].
(** A run of white space, as long as possible. *)
Definition skips (w raw rest : bytes) : Prop :=
  raw = w ++ rest /\ Forall white w /\ match rest with [] => True | b :: _ => ~ white b end.
(** Bytes of names: printable, not blank, not ">" and not one of [stop]. *)
Definition wordy (stop : bytes) (b : byte) : Prop :=
  (0x21 <= b2N b <= 0x7e)%N /\ b <> x3e /\ ~ In b stop.
Definition run (stop n raw rest : bytes) : Prop :=
  raw = n ++ rest /\ Forall (wordy stop) n /\ match rest with [] => False | b :: _ => ~ wordy stop b end.
Definition begins (p raw : bytes) : Prop := exists r, raw = p ++ r.
(** [body] is what comes before the first occurrence of [stop]. *)
Definition before (stop body raw rest : bytes) : Prop :=
  raw = body ++ stop ++ rest /\ forall p s, raw = p ++ stop ++ s -> length body <= length p.

(** ** Character references: what follows "&" *)
Definition named : list (bytes * byte) :=
  [(str "lt", x3c); (str "gt", x3e); (str "amp", x26); (str "apos", x27); (str "quot", x22)].
Definition digit_of (base : N) (b : byte) (d : N) : Prop :=
  (d < base)%N /\
  ((d < 10)%N /\ b2N b = (0x30 + d)%N \/
   (10 <= d)%N /\ (b2N b = (0x61 + (d - 10))%N \/ b2N b = (0x41 + (d - 10))%N)).
(** The digits [ds], after digits worth [a], make [n]. *)
Inductive numeral (base : N) : N -> bytes -> N -> Prop :=
| Num_nil a : numeral base a [] a
| Num_digit a b d ds n : digit_of base b d -> numeral base (a * base + d) ds n -> numeral base a (b :: ds) n.
Definition base_of (hex : bool) : N := if hex then 16%N else 10%N.
Definition hash (hex : bool) : bytes := x23 :: (if hex then [x78] else []).

Inductive reference : bytes -> bytes -> bytes -> Prop :=
(* one of the five names *)
| Ref_named n b rest : In (n, b) named -> reference (n ++ x3b :: rest) [b] rest
(* the code of a byte *)
| Ref_code hex ds n rest : ds <> [] -> numeral (base_of hex) 0 ds n -> (n <= 255)%N ->
    reference (hash hex ++ ds ++ x3b :: rest) [N2b n] rest
(* what is not a reference means itself *)
| Ref_unknown n rest : Forall (wordy [x3b]) n -> ~ begins [x23] n -> (forall b, ~ In (n, b) named) ->
    reference (n ++ x3b :: rest) (x26 :: n ++ [x3b]) rest
| Ref_open n c rest : Forall (wordy [x3b]) n -> ~ begins [x23] n -> ~ wordy [] c ->
    reference (n ++ c :: rest) (x26 :: n) (c :: rest)
| Ref_code_none hex rest : reference (hash hex ++ x3b :: rest) (x26 :: hash hex ++ [x3b]) rest
| Ref_code_big hex ds n rest : numeral (base_of hex) 0 ds n -> (255 < n)%N ->
    reference (hash hex ++ ds ++ x3b :: rest) (x26 :: hash hex ++ ds ++ [x3b]) rest
| Ref_code_open hex ds n c rest : numeral (base_of hex) 0 ds n -> c <> x3b -> (forall d, ~ digit_of (base_of hex) c d) ->
    (hex = false -> ds = [] -> c <> x78) ->
    reference (hash hex ++ ds ++ c :: rest) (x26 :: hash hex ++ ds) (c :: rest).

(** ** Text of an element (up to "<") and of an attribute (up to the quote) *)
Inductive content (quoted : bool) : bytes -> bytes -> bytes -> Prop :=
| Con_tag rest : quoted = false -> content quoted (x3c :: rest) [] (x3c :: rest)
| Con_quote rest : quoted = true -> content quoted (x22 :: rest) [] rest
| Con_byte b raw v rest : b <> x26 -> b <> x0d -> b <> (if quoted then x22 else x3c) ->
    (quoted = false -> ~ begins (str "]]>") (b :: raw)) ->
    content quoted raw v rest -> content quoted (b :: raw) (b :: v) rest
| Con_crlf raw v rest : content quoted raw v rest -> content quoted (x0d :: x0a :: raw) (x0a :: v) rest
| Con_cr raw v rest : ~ begins [x0a] raw -> content quoted raw v rest -> content quoted (x0d :: raw) (x0a :: v) rest
| Con_ref raw u r v rest : reference raw u r -> content quoted r v rest -> content quoted (x26 :: raw) (u ++ v) rest.
(** Line ends of a CDATA section are read like those of text. *)
Inductive lines : bytes -> bytes -> Prop :=
| Lines_nil : lines [] []
| Lines_byte b s v : b <> x0d -> lines s v -> lines (b :: s) (b :: v)
| Lines_crlf s v : lines s v -> lines (x0d :: x0a :: s) (x0a :: v)
| Lines_cr s v : ~ begins [x0a] s -> lines s v -> lines (x0d :: s) (x0a :: v).
Definition cdata_mark : bytes := str "<![CDATA[".
(** An optional CDATA section. *)
Inductive section : bytes -> option bytes -> bytes -> Prop :=
| Section_none raw : ~ begins cdata_mark raw -> section raw None raw
| Section_some raw body v rest : before (str "]]>") body raw rest -> lines body v ->
    section (cdata_mark ++ raw) (Some v) rest.

(** ** Start tags: what follows "<" *)
Definition past (raw rest : bytes) : Prop := exists junk, before [x3e] junk raw rest.
(** Elements are kept, or dropped with a warning; they have content, or not. *)
Record fate := Fate { f_keep : bool; f_empty : bool }.

Section Lines.
(** The whole input; the position of a warning is the number of line ends
    between its start and what is left. *)
Variable input : bytes.
Definition newlines (s : bytes) : nat := count_occ Byte.byte_eq_dec s x0a.
Definition line_before (rest : bytes) : Z := (1 + Z.of_nat (newlines input) - Z.of_nat (newlines rest))%Z.
Definition warning (msg : String.string) (rest : bytes) : list xerr := [XSyntax msg (line_before rest)].

Inductive attributes : bytes -> list (bytes * bytes) * fate * list xerr -> bytes -> Prop :=
| Attrs_end w raw rest : skips w raw (x3e :: rest) -> attributes raw ([], Fate true false, []) rest
| Attrs_empty w raw rest : skips w raw (x2f :: x3e :: rest) -> attributes raw ([], Fate true true, []) rest
| Attrs_more w0 raw r0 n r1 w1 r2 w2 r3 v r4 l f ws rest :
    skips w0 raw r0 -> ~ begins [x2f] r0 ->
    run [x3d] n r0 r1 -> n <> [] -> skips w1 r1 (x3d :: r2) -> skips w2 r2 (x22 :: r3) ->
    content true r3 v r4 -> attributes r4 (l, f, ws) rest ->
    attributes raw ((n, v) :: l, f, ws) rest
(* errors that drop the element: the rest of the start tag is skipped *)
| Attrs_slash w raw b r rest : skips w raw (x2f :: b :: r) -> b <> x3e -> past r rest ->
    attributes raw ([], Fate false true, warning "expected /> in element" r) rest
| Attrs_noname w raw b r rest : skips w raw (b :: r) -> b <> x2f -> b <> x3e -> ~ wordy [x3d] b -> past (b :: r) rest ->
    attributes raw ([([], [])], Fate false false, warning "expected attribute name in element" (b :: r)) rest
| Attrs_noequal w0 raw r0 n r1 w1 b r2 rest :
    skips w0 raw r0 -> ~ begins [x2f] r0 -> run [x3d] n r0 r1 -> n <> [] -> skips w1 r1 (b :: r2) -> b <> x3d -> past r2 rest ->
    attributes raw ([(n, [])], Fate false false, warning "attribute name without = in element" r2) rest.

Inductive start_tag : bytes -> bytes * list (bytes * bytes) * fate * list xerr -> bytes -> Prop :=
| Start_tag n raw r l f ws rest : run [] n raw r -> n <> [] -> ~ begins [x2f] raw -> ~ begins (str "!--") raw ->
    attributes r (l, f, ws) rest -> start_tag raw (n, l, f, ws) rest
| Start_noname b r rest : ~ wordy [] b -> past (b :: r) rest ->
    start_tag (b :: r) ([], [], Fate false false, warning "expected element name after <" (b :: r)) rest.
(** Comments: what follows "<". *)
Inductive comment : bytes -> tag -> bytes -> Prop :=
| Comment body raw rest : before (str "-->") body raw rest ->
    comment (str "!--" ++ raw) (Tag [] [] [] false true None body false []) rest.

Definition filled (cd : option bytes) (tx : bytes) (ts : list tag) : Prop :=
  (cd <> None /\ cd <> Some []) \/ tx <> [] \/ ts <> [].
(** Whether the tag asks not to be indented: it has content, and nothing
    separates it from the start tag, in a document that is indented. *)
Definition tight (indented : bool) (w : bytes) (cd : option bytes) (tx : bytes) (ts : list tag) (ni : bool) : Prop :=
  ni = true <-> indented = true /\ w = [] /\ filled cd tx ts.

(** ** Elements: what follows "<".  [indented] tells whether the document is.
    Nothing is an element that was dropped. *)
Inductive element (indented : bool) : bytes -> option tag * list xerr -> bytes -> Prop :=
| El_comment raw t rest : comment raw t rest -> element indented raw (Some t, []) rest
| El_empty raw n l k ws rest : start_tag raw (n, l, Fate k true, ws) rest ->
    element indented raw (if k then Some (Tag n [] l true false None [] false []) else None, ws) rest
| El_full raw n l k ws r1 w1 r2 cd r3 w2 r4 tx r5 ts en ws' rest ni :
    start_tag raw (n, l, Fate k false, ws) r1 ->
    skips w1 r1 r2 -> section r2 cd r3 -> skips w2 r3 r4 -> content false r4 tx r5 ->
    elements indented r5 (ts, en, ws') rest -> tight indented w2 cd tx ts ni ->
    element indented raw (if k then Some (Tag n en l false false cd tx ni ts) else None, ws ++ ws') rest
(** The elements in an element, and its end tag. *)
with elements (indented : bool) : bytes -> list tag * bytes * list xerr -> bytes -> Prop :=
| Els_end w raw n r1 w1 r0 rest : skips w raw (x3c :: x2f :: r0) -> run [] n r0 r1 -> n <> [] -> skips w1 r1 (x3e :: rest) ->
    elements indented raw ([], n, []) rest
| Els_more w raw r0 o ws r1 ts en ws' rest : skips w raw (x3c :: r0) -> ~ begins [x2f] r0 ->
    element indented r0 (o, ws) r1 -> elements indented r1 (ts, en, ws') rest ->
    elements indented raw ((match o with Some t => [t] | None => [] end) ++ ts, en, ws ++ ws') rest.

(** ** The document *)

(** The first attribute with this name. *)
Definition first_attr (l : list (bytes * bytes)) (n v : bytes) : Prop :=
  exists p s, l = p ++ (n, v) :: s /\ ~ In n (map fst p).
(** A version: decimal digits, maybe after "+", that make 4 or more. *)
Definition version_ok (v : bytes) : Prop :=
  exists ds n, (v = ds \/ v = x2b :: ds) /\ ds <> [] /\ numeral 10 0 ds n /\ (4 <= n < 2 ^ 31)%N.
Definition root_ok (n : bytes) (l : list (bytes * bytes)) : Prop :=
  n = str "roblox" /\ exists v, first_attr l (str "version") v /\ version_ok v.
(** The indentation that white space under the root tag shows, after the
    prefix [p] in front of it. *)
Definition after_line (w l : bytes) : Prop := exists u, w = u ++ x0a :: l /\ ~ In x0a u.
Inductive layout (p : bytes) : bytes -> bytes * bytes -> Prop :=
| Layout_line w : ~ In x0a w -> layout p w (p, [])
| Layout_indent w i : after_line w (p ++ i) -> layout p w (p, i)
| Layout_other w l : after_line w l -> ~ begins p l -> layout p w ([], []).

Inductive document : doc -> Prop :=
| Doc_comment p r0 t rest : skips p input (x3c :: r0) -> comment r0 t rest ->
    document (Doc p [] rest false (Some t) [])
| Doc_empty p r0 n l k ws rest : skips p input (x3c :: r0) -> start_tag r0 (n, l, Fate k true, ws) rest -> root_ok n l ->
    document (Doc p [] rest false (if k then Some (Tag n [] l true false None [] false []) else None) ws)
| Doc_full p r0 n l k ws r1 w1 r2 cd r3 w2 r4 p' i' tx r5 ts en ws' rest :
    skips p input (x3c :: r0) -> start_tag r0 (n, l, Fate k false, ws) r1 -> root_ok n l ->
    skips w1 r1 r2 -> section r2 cd r3 -> skips w2 r3 r4 -> layout p w2 (p', i') ->
    content false r4 tx r5 -> elements (negb (match p' ++ i' with [] => true | _ => false end)) r5 (ts, en, ws') rest ->
    document (Doc p' i' rest false (if k then Some (Tag n en l false false cd tx false ts) else None) (ws ++ ws')).
End Lines.
Scheme element_mut := Induction for element Sort Prop
  with elements_mut := Induction for elements Sort Prop.
Combined Scheme element_both from element_mut, elements_mut.
