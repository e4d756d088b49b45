(** SpecXmlWrite.v - the text of an XML document.

    Nothing here refers to the writer. *)
From Verif Require Import Base XmlText XmlDoc SpecXmlText.

(** ** Text *)
(** The decimal digits of a number below 1000, without leading zeros. *)
Definition decimal (n : N) (ds : bytes) : Prop :=
  ds <> [] /\ numeral 10 0 ds n /\ (forall r, ds = x30 :: r -> r = []).
(** How a byte of text is written: five characters by name, printable ASCII
    and line ends as they are, the others by their code. *)
Inductive byte_text : byte -> bytes -> Prop :=
| Byte_named n b : In (n, b) named -> byte_text b (x26 :: n ++ [x3b])
| Byte_literal b : (0x20 <= b2N b <= 0x7e)%N \/ In b [x0a; x0d] -> ~ In b [x22; x27; x26; x3c; x3e] -> byte_text b [b]
| Byte_code b ds : (b2N b < 0x20 \/ 0x7e < b2N b)%N -> ~ In b [x0a; x0d] -> decimal (b2N b) ds -> byte_text b (x26 :: x23 :: ds ++ [x3b]).
Inductive plain_text : bytes -> bytes -> Prop :=
| Plain_nil : plain_text [] []
| Plain_byte b e s r : byte_text b e -> plain_text s r -> plain_text (b :: s) (e ++ r).
(** In the content of an element, white space at the start is written by code. *)
Inductive element_text : bytes -> bytes -> Prop :=
| Text_plain s r : match s with [] => True | b :: _ => ~ white b end -> plain_text s r -> element_text s r
| Text_white b ds s r : white b -> decimal (b2N b) ds -> element_text s r ->
    element_text (b :: s) (x26 :: x23 :: ds ++ x3b :: r).

(** ** Tags *)
(** A name: at least one byte, all printable, no blank, no ">" and none of [stop]. *)
Definition name_ok (stop n : bytes) : Prop := n <> [] /\ Forall (wordy stop) n.
Inductive attributes_text : list (bytes * bytes) -> bytes -> list xerr -> Prop :=
| At_nil : attributes_text [] [] []
| At_attr n v e l r ws : name_ok [x3d] n -> plain_text v e -> attributes_text l r ws ->
    attributes_text ((n, v) :: l) (x20 :: n ++ x3d :: x22 :: e ++ x22 :: r) ws
| At_ignored n v l r ws : ~ name_ok [x3d] n -> attributes_text l r ws ->
    attributes_text ((n, v) :: l) r (XMsg "ignored attribute with malformed name" :: ws).
(** The name in the end tag: the end name, if it is a name. *)
Inductive end_name (start : bytes) : bytes -> bytes -> list xerr -> Prop :=
| End_none : end_name start [] start []
| End_own n : name_ok [] n -> end_name start n n []
| End_bad n : n <> [] -> ~ name_ok [] n -> end_name start n start [XMsg "tag with malformed end name, used start name instead"].
Inductive cdata_text : option bytes -> bytes -> Prop :=
| Cdata_none : cdata_text None []
| Cdata_some c : cdata_text (Some c) (cdata_mark ++ c ++ str "]]>").

Section Layout.
Variable (prefix indent : bytes).
(** A new line at a depth; with neither prefix nor indent all is one line. *)
Inductive new_line : nat -> bytes -> Prop :=
| Line_none d : prefix = [] -> indent = [] -> new_line d []
| Line_some d : prefix <> [] \/ indent <> [] -> new_line d (x0a :: prefix ++ concat (repeat indent d)).

(** The text of a tag at a depth, with its warnings; [loose] tells whether no
    tag around it asks not to be indented.  All tags must have names. *)
Inductive tag_text : nat -> bool -> tag -> bytes -> list xerr -> Prop :=
| Tag_comment d loose st en at_ em cd tx ni ts r : element_text tx r ->
    tag_text d loose (Tag st en at_ em true cd tx ni ts) (str "<!--" ++ r ++ str "-->") []
| Tag_empty d loose st en fin at_ cd tx ni ts ra ws ws' : name_ok [] st -> end_name st en fin ws -> attributes_text at_ ra ws' ->
    tag_text d loose (Tag st en at_ true false cd tx ni ts) (x3c :: st ++ ra ++ [x2f; x3e]) (ws ++ ws')
| Tag_tight d loose st en fin at_ cd tx ni ts ra rc rt rs ws ws' ws'' :
    loose && negb ni = false -> name_ok [] st -> end_name st en fin ws -> attributes_text at_ ra ws' ->
    cdata_text cd rc -> element_text tx rt -> tags_text d false [] [] ts rs ws'' ->
    tag_text d loose (Tag st en at_ false false cd tx ni ts)
      (x3c :: st ++ ra ++ x3e :: rc ++ rt ++ rs ++ x3c :: x2f :: fin ++ [x3e]) (ws ++ ws' ++ ws'')
| Tag_leaf d loose st en fin at_ cd tx ra rc rt ws ws' :
    loose = true -> name_ok [] st -> end_name st en fin ws -> attributes_text at_ ra ws' -> cdata_text cd rc -> element_text tx rt ->
    tag_text d loose (Tag st en at_ false false cd tx false [])
      (x3c :: st ++ ra ++ x3e :: rc ++ rt ++ x3c :: x2f :: fin ++ [x3e]) (ws ++ ws')
| Tag_block d loose st en fin at_ cd tx ts ra rc rt rs deep back ws ws' ws'' :
    loose = true -> name_ok [] st -> end_name st en fin ws -> attributes_text at_ ra ws' -> cdata_text cd rc -> element_text tx rt ->
    ts <> [] -> new_line (S d) deep -> new_line d back -> tags_text (S d) true deep back ts rs ws'' ->
    tag_text d loose (Tag st en at_ false false cd tx false ts)
      (x3c :: st ++ ra ++ x3e :: rc ++ deep ++ rt ++ rs ++ x3c :: x2f :: fin ++ [x3e]) (ws ++ ws' ++ ws'')
(** Tags with a separator, and something after the last. *)
with tags_text : nat -> bool -> bytes -> bytes -> list tag -> bytes -> list xerr -> Prop :=
| Tags_nil d loose sep fin : tags_text d loose sep fin [] [] []
| Tags_last d loose sep fin t r ws : tag_text d loose t r ws -> tags_text d loose sep fin [t] (r ++ fin) ws
| Tags_more d loose sep fin t r ws t' ts rs ws' : tag_text d loose t r ws -> tags_text d loose sep fin (t' :: ts) rs ws' ->
    tags_text d loose sep fin (t :: t' :: ts) (r ++ sep ++ rs) (ws ++ ws').

(** The document: prefix, root, suffix. *)
Inductive root_text : bool -> tag -> bytes -> list xerr -> Prop :=
| Root_tag t r ws : tag_text 0 true t r ws -> root_text false t r ws
| Root_comment st en at_ em cd tx ni ts r : element_text tx r ->
    root_text true (Tag st en at_ em true cd tx ni ts) (str "<!--" ++ r ++ str "-->") []
(* only what is in the root tag *)
| Root_inner st en at_ em cd tx ni ts rc rt rs ws sep :
    (ni = true -> sep = []) -> (ni = false -> new_line 0 sep) -> cdata_text cd rc -> element_text tx rt ->
    tags_text 0 (negb ni) sep [] ts rs ws ->
    root_text true (Tag st en at_ em false cd tx ni ts) (rc ++ rt ++ rs) ws.
End Layout.

(** Every tag has a name. *)
Fixpoint named_tag (t : tag) : Prop :=
  let 'Tag start _ _ empty comment _ _ _ tags := t in
  comment = true \/ name_ok [] start /\ (empty = true \/ (fix all l := match l with [] => True | t :: l => named_tag t /\ all l end) tags).
Fixpoint all_named (l : list tag) : Prop := match l with [] => True | t :: l => named_tag t /\ all_named l end.
Definition named_root (exclude : bool) (t : tag) : Prop :=
  if exclude then t_comment t = true \/ all_named (t_tags t) else named_tag t.

Definition document_text (d : doc) (out : bytes) (ws : list xerr) : Prop :=
  match doc_root d with
  | None => out = [] /\ ws = []
  | Some t => exists r, root_text (doc_prefix d) (doc_indent d) (doc_exclude d) t r ws /\ out = doc_prefix d ++ r ++ doc_suffix d
  end.
