(** XmlDoc.v - model of /repo/rbxlx/document.go: the XML parser and writer.

    The parser's state machine is modelled function by function.  Loops take
    fuel computed from the unread input; running out of it is [Hang], which is
    proved not to happen.  Simplifications: the buffer of bytes put back and
    the bytes not yet read from the io.Reader are one list (so the count [n]
    of bytes read, which no exported function returns, is not modelled); the
    reader is a byte string followed by an error, io.EOF or another one; the
    writer accepts everything. *)
From Verif Require Import Base XmlText.
Local Notation string := String.string.

(** document.go:24-70 documentTag.  CData nil is [None]. *)
Inductive tag := Tag (start end_ : bytes) (attr : list (bytes * bytes)) (empty comment : bool)
  (cdata : option bytes) (text : bytes) (noindent : bool) (tags : list tag).
Definition t_start t := let 'Tag a _ _ _ _ _ _ _ _ := t in a.
Definition t_end t := let 'Tag _ a _ _ _ _ _ _ _ := t in a.
Definition t_attr t := let 'Tag _ _ a _ _ _ _ _ _ := t in a.
Definition t_empty t := let 'Tag _ _ _ a _ _ _ _ _ := t in a.
Definition t_comment t := let 'Tag _ _ _ _ a _ _ _ _ := t in a.
Definition t_cdata t := let 'Tag _ _ _ _ _ a _ _ _ := t in a.
Definition t_text t := let 'Tag _ _ _ _ _ _ a _ _ := t in a.
Definition t_noindent t := let 'Tag _ _ _ _ _ _ _ a _ := t in a.
Definition t_tags t := let 'Tag _ _ _ _ _ _ _ _ a := t in a.

(** document.go:74-81 AttrValue *)
Fixpoint attr_value (attr : list (bytes * bytes)) (name : bytes) : option bytes :=
  match attr with
  | [] => None
  | (n, v) :: attr => if bytes_eqb n name then Some v else attr_value attr name
  end.
(** document.go:87-102 SetAttrValue, the effect on Attr.  [a] is a copy of the
    element, so the assignment on :94 changes nothing. *)
Fixpoint attr_remove (attr : list (bytes * bytes)) (name : bytes) : list (bytes * bytes) :=
  match attr with
  | [] => []
  | (n, v) :: attr => if bytes_eqb n name then attr else (n, v) :: attr_remove attr name
  end.
Definition SetAttrValue (attr : list (bytes * bytes)) (name value : bytes) : list (bytes * bytes) :=
  match attr_value attr name with
  | Some _ => match value with [] => attr_remove attr name | _ => attr end
  | None => match value with [] => attr | _ => attr ++ [(name, value)] end
  end.

(** Errors and warnings: io.EOF, another reader error, document.go:216-226
    syntaxError with and without a message, other messages. *)
Inductive xerr := XEOF | XReader (e : nat) | XSyntax (msg : string) (line : Z) | XUnmatched (line : Z)
  | XMsg (msg : string).

(** document.go:228-237 decoder, and the fields of its document. *)
Record ctx := Ctx {
  c_end : xerr;                 (* the error of the reader after its bytes *)
  c_stack : list Z;             (* tagstack, top first *)
  c_prefix : bytes; c_indent : bytes; c_warn : list xerr }.
Record dst := Dst { d_in : bytes; d_err : option xerr; d_line : Z; d_ctx : ctx }.
Definition set_err (s : dst) (e : option xerr) : dst := Dst (d_in s) e (d_line s) (d_ctx s).
Definition set_ctx (s : dst) (c : ctx) : dst := Dst (d_in s) (d_err s) (d_line s) c.
(** document.go:240-243 syntaxError *)
Definition syntax (s : dst) (msg : string) : xerr := XSyntax msg (d_line s).
Definition fail (s : dst) (msg : string) : dst := set_err s (Some (syntax s msg)).
(** document.go:245-250 tagError *)
Definition tag_error (s : dst) : option xerr :=
  match c_stack (d_ctx s) with [] => None | l :: _ => Some (XUnmatched l) end.

Definition xm (A : Type) := outcome Empty_set (A * dst).

(** document.go:647-654 isSpace *)
Definition isSpace (b : byte) : bool :=
  match b with x20 | x0d | x0a | x09 | x0c => true | _ => false end.
(** document.go:926-939 isNameByte *)
Inductive name_kind := NameTag | NameAttr | NameEntity.
Definition isNameByte (k : name_kind) (c : byte) : bool :=
  ((0x21 <=? b2N c) && (b2N c <=? 0x7e))%N && negb (Byte.eqb c x3e) &&
  match k with NameTag => true | NameAttr => negb (Byte.eqb c x3d) | NameEntity => negb (Byte.eqb c x3b) end.

(** document.go:660-680 getc *)
Definition bump (b : byte) (l : Z) : Z := if Byte.eqb b x0a then (l + 1)%Z else l.
Definition getc (s : dst) : option byte * dst :=
  match d_err s with
  | Some _ => (None, s)
  | None =>
      match d_in s with
      | [] => (None, set_err s (Some (c_end (d_ctx s))))
      | b :: r => (Some b, Dst r None (bump b (d_line s)) (d_ctx s))
      end
  end.
(** document.go:685-692 mustgetc *)
Definition mustgetc (s : dst) : option byte * dst :=
  match getc s with
  | (None, s) => (None, match d_err s with Some XEOF => fail s "unexpected EOF" | _ => s end)
  | r => r
  end.
(** document.go:695-700 ungetc *)
Definition ungetc (b : byte) (s : dst) : dst :=
  Dst (b :: d_in s) (d_err s) (if Byte.eqb b x0a then (d_line s - 1)%Z else d_line s) (d_ctx s).
(** document.go:702-715 match; [read] are the characters already matched, last
    first. *)
Fixpoint match_from (read : bytes) (want : bytes) (s : dst) : bool * dst :=
  match want with
  | [] => (true, s)
  | c :: want =>
      match getc s with
      | (None, s) => (false, s)
      | (Some b, s) =>
          if Byte.eqb b c then match_from (b :: read) want s
          else (false, fold_left (fun s b => ungetc b s) read (ungetc b s))
      end
  end.
Definition match_ (want : bytes) (s : dst) : bool * dst := match_from [] want s.

(** document.go:617-631 readSpace *)
Fixpoint readSpace_loop (fuel : nat) (buf : bytes) (s : dst) : xm bytes :=
  match fuel with
  | O => Hang
  | S fuel =>
      match getc s with
      | (None, s) => OK (buf, s)
      | (Some b, s) => if isSpace b then readSpace_loop fuel (buf ++ [b]) s else OK (buf, ungetc b s)
      end
  end.
Definition fuel_of (s : dst) : nat := S (length (d_in s)).
Definition readSpace (s : dst) : xm bytes := readSpace_loop (fuel_of s) [] s.
(** document.go:634-645 space *)
Fixpoint space_loop (fuel : nat) (s : dst) : xm unit :=
  match fuel with
  | O => Hang
  | S fuel =>
      match getc s with
      | (None, s) => OK (tt, s)
      | (Some b, s) => if isSpace b then space_loop fuel s else OK (tt, ungetc b s)
      end
  end.
Definition space (s : dst) : xm unit := space_loop (fuel_of s) s.

(** document.go:252-266 ignoreStartTag: -1 or 0 *)
Fixpoint ignore_loop (fuel : nat) (s : dst) : xm Z :=
  match fuel with
  | O => Hang
  | S fuel =>
      match mustgetc s with
      | (None, s) => OK ((-1)%Z, s)
      | (Some b, s) => if Byte.eqb b x3e then OK (0%Z, s) else ignore_loop fuel s
      end
  end.
Definition add_warn (s : dst) (e : xerr) : dst :=
  let c := d_ctx s in set_ctx s (Ctx (c_end c) (c_stack c) (c_prefix c) (c_indent c) (c_warn c ++ [e])).
Definition ignoreStartTag (e : xerr) (s : dst) : xm Z :=
  let s := add_warn s e in ignore_loop (fuel_of s) s.

(** document.go:268-282 decodeComment: the text, or nothing *)
Fixpoint comment_loop (fuel : nat) (buf : bytes) (s : dst) : xm (option bytes) :=
  match fuel with
  | O => Hang
  | S fuel =>
      match mustgetc s with
      | (None, s) => OK (None, s)
      | (Some b, s) =>
          let '(m, s) := if Byte.eqb b x2d then match_ (str "->") s else (false, s) in
          if m then OK (Some buf, s) else comment_loop fuel (buf ++ [b]) s
      end
  end.

(** document.go:896-918 readName, appending to [buf] *)
Fixpoint readName_loop (fuel : nat) (k : name_kind) (buf : bytes) (s : dst) : xm (bool * bytes) :=
  match fuel with
  | O => Hang
  | S fuel =>
      match mustgetc s with
      | (None, s) => OK (false, buf, s)
      | (Some b, s) =>
          if isNameByte k b then readName_loop fuel k (buf ++ [b]) s else OK (true, buf, ungetc b s)
      end
  end.
Definition readName (k : name_kind) (buf : bytes) (s : dst) : xm (bool * bytes) :=
  match mustgetc s with
  | (None, s) => OK (false, buf, s)
  | (Some b, s) =>
      if isNameByte k b then readName_loop (fuel_of s) k (buf ++ [b]) s else OK (false, buf, ungetc b s)
  end.
(** document.go:884-891 name *)
Definition name (k : name_kind) (s : dst) : xm (option bytes) :=
  ' (ok, buf, s) <- readName k [] s ;; OK (if ok then Some buf else None, s).

(** document.go:717-723 entity *)
Definition entity (n : bytes) : option byte :=
  if bytes_eqb n (str "lt") then Some x3c else if bytes_eqb n (str "gt") then Some x3e
  else if bytes_eqb n (str "amp") then Some x26 else if bytes_eqb n (str "apos") then Some x27
  else if bytes_eqb n (str "quot") then Some x22 else None.
(** document.go:786-800: the digits of a numeric entity; the result is the
    digits and the character after them. *)
Definition is_digit (hex : bool) (b : byte) : bool :=
  match digit b with Some d => (d <? (if hex then 16 else 10))%N | None => false end.
Fixpoint digits_loop (fuel : nat) (hex : bool) (b : byte) (acc : bytes) (s : dst) : xm (option (bytes * byte)) :=
  match fuel with
  | O => Hang
  | S fuel =>
      if is_digit hex b then
        match mustgetc s with
        | (None, s) => OK (None, s)
        | (Some b', s) => digits_loop fuel hex b' (acc ++ [b]) s
        end
      else OK (Some (acc, b), s)
  end.
(** document.go:769-850: after '&'.  The result is the new buffer; nothing is
    "return nil". *)
Definition read_entity (buf : bytes) (s : dst) : xm (option bytes) :=
  match mustgetc s with
  | (None, s) => OK (None, s)
  | (Some b, s) =>
      if Byte.eqb b x23 then
        match mustgetc s with
        | (None, s) => OK (None, s)
        | (Some b, s) =>
            let hex := Byte.eqb b x78 in
            let '(ob, s) := if hex then mustgetc s else (Some b, s) in
            match ob with
            | None => OK (None, s)
            | Some b =>
                ' (r, s) <- digits_loop (S (fuel_of s)) hex b [] s ;;
                match r with
                | None => OK (None, s)
                | Some (ds, b) =>
                    let raw := buf ++ [x26; x23] ++ (if hex then [x78] else []) ++ ds in
                    if Byte.eqb b x3b then
                      match ParseUint (if hex then 16 else 10) 64 ds with
                      | PVal n => if (n <=? 255)%N then OK (Some (buf ++ [N2b n]), s) else OK (Some (raw ++ [x3b]), s)
                      | _ => OK (Some (raw ++ [x3b]), s)
                      end
                    else OK (Some raw, ungetc b s)
                end
            end
        end
      else
        ' (ok, nm, s) <- readName NameEntity [] (ungetc b s) ;;
        match ok, d_err s with
        | false, Some _ => OK (None, s)
        | _, _ =>
            match mustgetc s with
            | (None, s) => OK (None, s)
            | (Some b, s) =>
                if Byte.eqb b x3b then
                  match entity nm with
                  | Some r => OK (Some (buf ++ [r]), s)
                  | None => OK (Some (buf ++ x26 :: nm ++ [x3b]), s)
                  end
                else OK (Some (buf ++ x26 :: nm), ungetc b s)
            end
        end
  end.
(** document.go:729-879 text.  [b0], [b1] are the two preceding bytes.  buf[0 :
    len(buf)-trunc] panics if there are fewer than two. *)
Fixpoint text_loop (fuel : nat) (quote : option byte) (cdata : bool) (b0 b1 : byte) (buf : bytes) (s : dst)
  : xm (option bytes) :=
  match fuel with
  | O => Hang
  | S fuel =>
      match getc s with
      | (None, s) =>
          if cdata then
            OK (None, match d_err s with Some XEOF => fail s "unexpected EOF in CDATA section" | _ => s end)
          else OK (Some buf, s)
      | (Some b, s) =>
          let closes := Byte.eqb b0 x5d && Byte.eqb b1 x5d && Byte.eqb b x3e in
          if closes && cdata then
            if (length buf <? 2)%nat then Panic else OK (Some (firstn (length buf - 2) buf), s)
          else if closes && (match quote with None => true | _ => false end) then
            OK (None, fail s "unexpected ']]>'")
          else if Byte.eqb b x3c && negb cdata && (match quote with None => true | _ => false end) then
            OK (Some buf, ungetc x3c s)
          else if (match quote with Some q => Byte.eqb b q | None => false end) then OK (Some buf, s)
          else if Byte.eqb b x26 && negb cdata then
            ' (r, s) <- read_entity buf s ;;
            match r with
            | None => OK (None, s)
            | Some buf => text_loop fuel quote cdata x00 x00 buf s
            end
          else
            let buf := if Byte.eqb b x0d then buf ++ [x0a]
                       else if Byte.eqb b1 x0d && Byte.eqb b x0a then buf
                       else buf ++ [b] in
            text_loop fuel quote cdata b1 b buf s
      end
  end.
Definition text (quote : option byte) (cdata : bool) (s : dst) : xm (option bytes) :=
  text_loop (fuel_of s) quote cdata x00 x00 [] s.
(** document.go:603-615 attrval *)
Definition attrval (s : dst) : xm (option bytes) :=
  match mustgetc s with
  | (None, s) => OK (None, s)
  | (Some b, s) =>
      if Byte.eqb b x22 then text (Some b) false s
      else OK (None, fail s "unquoted or missing attribute value in element")
  end.

(** document.go:316-363: the attributes of a start tag, up to its end; the
    state, the attributes and whether the tag is empty.  The attribute is in
    the list before its name and value are read. *)
Fixpoint attrs_loop (fuel : nat) (attrs : list (bytes * bytes)) (s : dst) : xm (Z * list (bytes * bytes) * bool) :=
  match fuel with
  | O => Hang
  | S fuel =>
      ' (_, s) <- space s ;;
      match mustgetc s with
      | (None, s) => OK ((-1)%Z, attrs, false, s)
      | (Some b, s) =>
          if Byte.eqb b x2f then
            match mustgetc s with
            | (None, s) => OK ((-1)%Z, attrs, true, s)
            | (Some b, s) =>
                if Byte.eqb b x3e then OK (1%Z, attrs, true, s)
                else ' (st, s) <- ignoreStartTag (syntax s "expected /> in element") s ;; OK (st, attrs, true, s)
            end
          else if Byte.eqb b x3e then OK (1%Z, attrs, false, s)
          else
            ' (n, s) <- name NameAttr (ungetc b s) ;;
            match n with
            | None =>
                ' (st, s) <- ignoreStartTag (syntax s "expected attribute name in element") s ;;
                OK (st, attrs ++ [([], [])], false, s)
            | Some n =>
                ' (_, s) <- space s ;;
                match mustgetc s with
                | (None, s) => OK ((-1)%Z, attrs ++ [(n, [])], false, s)
                | (Some b, s) =>
                    if Byte.eqb b x3d then
                      ' (_, s) <- space s ;;
                      ' (v, s) <- attrval s ;;
                      match v with
                      | None => OK ((-1)%Z, attrs ++ [(n, [])], false, s)
                      | Some v => attrs_loop fuel (attrs ++ [(n, v)]) s
                      end
                    else
                      ' (st, s) <- ignoreStartTag (syntax s "attribute name without = in element") s ;;
                      OK (st, attrs ++ [(n, [])], false, s)
                end
            end
      end
  end.
(** document.go:286-364 decodeStartTag: -1 failed, 0 ignored, 1 tag, 2 comment;
    name, attributes, empty, text of the comment. *)
Definition decodeStartTag (s : dst) : xm (Z * bytes * list (bytes * bytes) * bool * bytes) :=
  match getc s with
  | (None, s) => OK ((-1)%Z, [], [], false, [], s)
  | (Some b, s) =>
      if negb (Byte.eqb b x3c) then OK ((-1)%Z, [], [], false, [], fail s "expected start tag")
      else
        match mustgetc s with
        | (None, s) => OK ((-1)%Z, [], [], false, [], s)
        | (Some b, s) =>
            if Byte.eqb b x2f then OK ((-1)%Z, [], [], false, [], fail s "unexpected end tag")
            else
              let '(m, s) := if Byte.eqb b x21 then match_ (str "--") s else (false, s) in
              if m then
                ' (c, s) <- comment_loop (fuel_of s) [] s ;;
                match c with
                | None => OK ((-1)%Z, [], [], false, [], s)
                | Some c => OK (2%Z, [], [], false, c, s)
                end
              else
                ' (n, s) <- name NameTag (ungetc b s) ;;
                match n with
                | None =>
                    ' (st, s) <- ignoreStartTag (syntax s "expected element name after <") s ;;
                    OK (st, [], [], false, [], s)
                | Some n =>
                    ' (st, attrs, empty, s) <- attrs_loop (fuel_of s) [] s ;;
                    OK (st, n, attrs, empty, [], s)
                end
        end
  end.

(** document.go:366-390 decodeCData *)
Fixpoint cdata_open (read want : bytes) (s : dst) : option bool * dst :=
  (* Some true: opened; Some false: something else, put back; None: no more *)
  match want with
  | [] => (Some true, s)
  | c :: want =>
      match getc s with
      | (None, s) => (None, s)
      | (Some b, s) =>
          if Byte.eqb b c then cdata_open (b :: read) want s
          else (Some false, fold_left (fun s b => ungetc b s) read (ungetc b s))
      end
  end.
Definition decodeCData (s : dst) : xm (bool * option bytes) :=
  match cdata_open [] (str "<![CDATA[") s with
  | (None, s) => OK (false, None, s)
  | (Some false, s) => OK (true, None, s)
  | (Some true, s) =>
      ' (t, s) <- text None true s ;;
      OK (match t with None => false | Some _ => true end, t, s)
  end.

(** document.go:402-437 decodeEndTag: success and the end name *)
Definition decodeEndTag (s : dst) : xm (bool * bytes) :=
  match getc s with
  | (None, s) => OK (false, [], s)
  | (Some b, s) =>
      if negb (Byte.eqb b x3c) then OK (false, [], fail s "expected start tag")
      else
        match mustgetc s with
        | (None, s) => OK (false, [], s)
        | (Some b, s) =>
            if negb (Byte.eqb b x2f) then OK (false, [], fail s "expected end tag")
            else
              ' (n, s) <- name NameTag s ;;
              match n with
              | None =>
                  OK (false, [], match d_err s with None => fail s "expected element name after </" | _ => s end)
              | Some n =>
                  ' (_, s) <- space s ;;
                  match mustgetc s with
                  | (None, s) => OK (false, n, s)
                  | (Some b, s) =>
                      if Byte.eqb b x3e then OK (true, n, s)
                      else OK (false, n, fail s "invalid characters between </ and >")   (* the name is in the message *)
                  end
              end
        end
  end.

(** document.go:466-487: what the root tag must be; the error otherwise *)
Definition root_check (start : bytes) (attrs : list (bytes * bytes)) (s : dst) : option xerr :=
  if negb (bytes_eqb start (str "roblox")) then Some (syntax s "no roblox tag")
  else
    match attr_value attrs (str "version") with
    | None => Some (syntax s "version attribute not specified")
    | Some v =>
        match ParseInt 32 v with
        | PVal n => if (n <? 4)%Z then Some (syntax s "schemaVersionLoading<4") else None
        | _ => Some (syntax s "no version number")
        end
    end.

Definition set_prefix (s : dst) (p : bytes) : dst :=
  let c := d_ctx s in set_ctx s (Ctx (c_end c) (c_stack c) p (c_indent c) (c_warn c)).
Definition set_indent (s : dst) (p : bytes) : dst :=
  let c := d_ctx s in set_ctx s (Ctx (c_end c) (c_stack c) (c_prefix c) p (c_warn c)).
Definition set_stack (s : dst) (l : list Z) : dst :=
  let c := d_ctx s in set_ctx s (Ctx (c_end c) l (c_prefix c) (c_indent c) (c_warn c)).
(** bytes.IndexByte(ind, '\n') and what follows it *)
Fixpoint after_newline (l : bytes) : option bytes :=
  match l with [] => None | b :: l => if Byte.eqb b x0a then Some l else after_newline l end.
Fixpoint drop_prefix (p l : bytes) : option bytes :=
  match p, l with
  | [], l => Some l
  | a :: p, b :: l => if Byte.eqb a b then drop_prefix p l else None
  | _ :: _, [] => None
  end.
(** document.go:508-524: indentation under the root tag *)
Definition detect_indent (s : dst) : xm unit :=
  ' (ind, s) <- readSpace s ;;
  match after_newline ind with
  | None => OK (tt, s)
  | Some l =>
      match drop_prefix (c_prefix (d_ctx s)) l with
      | None => OK (tt, set_prefix s [])
      | Some rest => OK (tt, set_indent s rest)
      end
  end.

(** document.go:448-456: spaces before the root tag *)
Definition lead_space (root : bool) (s : dst) : xm bytes :=
  if root then readSpace s else OK ([], s).
Definition nonempty {A} (l : list A) : bool := match l with [] => false | _ => true end.

(** document.go:507-533: spaces before the text; whether there were none
    although the document is indented *)
Definition content_space (root : bool) (s : dst) : xm bool :=
  if root then ' (_, s) <- detect_indent s ;; OK (false, s)
  else if nonempty (c_prefix (d_ctx s)) || nonempty (c_indent (d_ctx s)) then
    ' (sp, s) <- readSpace s ;; OK (negb (nonempty sp), s)
  else ' (_, s) <- space s ;; OK (false, s).

(** document.go:439-601 decodeTag.  The result is the tag, if any, and the
    error, if any.  [kids] is the loop over the children (:542-585); its result
    is the children and the end name, or the error to return. *)
Fixpoint decodeTag (fuel : nat) (root : bool) (s : dst) {struct fuel} : xm (option tag * option xerr) :=
  match fuel with
  | O => Hang
  | S fuel =>
      match d_err s with
      | Some e => OK (None, Some e, s)
      | None =>
          ' (p, s) <- lead_space root s ;;
          let s := if nonempty p then set_prefix s p else s in
          ' (st, start, attrs, empty, comment, s) <- decodeStartTag s ;;
          if (st <? 0)%Z then OK (None, d_err s, s)
          else if (st =? 2)%Z then OK (Some (Tag [] [] [] false true None comment false []), None, s)
          else
            match (if root then root_check start attrs s else None) with
            | Some e => OK (None, Some e, set_err s (Some e))
            | None =>
                if empty then
                  OK (if (st =? 0)%Z then None else Some (Tag start [] attrs true false None [] false []), None, s)
                else
                  let s := set_stack s (d_line s :: c_stack (d_ctx s)) in
                  ' (_, s) <- space s ;;
                  ' (ok, cdata, s) <- decodeCData s ;;
                  if negb ok then OK (None, d_err s, s)
                  else
                    ' (noindent, s) <- content_space root s ;;
                    ' (tx, s) <- text None false s ;;
                    match tx with
                    | None => OK (None, d_err s, s)
                    | Some tx =>
                        ' (r, e, s) <- kids fuel [] s ;;
                        match r with
                        | None => OK (None, e, s)
                        | Some (tags, endname) =>
                            match c_stack (d_ctx s) with
                            | [] => Panic                                   (* :569 *)
                            | _ :: stk =>
                                let s := set_stack s stk in
                                let content := (match cdata with Some c => nonempty c | None => false end)
                                               || nonempty tx || nonempty tags in
                                OK (if (st =? 0)%Z then None
                                    else Some (Tag start endname attrs false false cdata tx (content && noindent) tags),
                                    None, s)
                            end
                        end
                    end
            end
      end
  end
with kids (fuel : nat) (tags : list tag) (s : dst) {struct fuel} : xm (option (list tag * bytes) * option xerr) :=
  match fuel with
  | O => Hang
  | S fuel =>
      ' (_, s) <- space s ;;
      match getc s with
      | (None, s) => let s := set_err s (tag_error s) in OK (None, d_err s, s)
      | (Some b, s) =>
          if negb (Byte.eqb b x3c) then let s := fail s "expected tag" in OK (None, d_err s, s)
          else
            match mustgetc s with
            | (None, s) => OK (None, d_err s, s)
            | (Some b, s) =>
                if Byte.eqb b x2f then
                  ' (ok, n, s) <- decodeEndTag (ungetc x3c (ungetc x2f s)) ;;
                  if ok then OK (Some (tags, n), None, s) else OK (None, d_err s, s)
                else
                  ' (sub, e, s) <- decodeTag fuel false (ungetc x3c (ungetc b s)) ;;
                  match e with
                  | Some e => OK (None, Some e, s)
                  | None => kids fuel (match sub with Some t => tags ++ [t] | None => tags end) s
                  end
            end
      end
  end.

(** document.go:171-214 documentRoot *)
Record doc := Doc {
  doc_prefix : bytes; doc_indent : bytes; doc_suffix : bytes; doc_exclude : bool;
  doc_root : option tag; doc_warn : list xerr }.
(** document.go:942-978 ReadFrom a reader with these bytes, then this error;
    the error of the document keeps the warnings. *)
Definition ReadFrom (input : bytes) (end_ : xerr) : outcome (xerr * list xerr) doc :=
  match decodeTag (2 * length input + 4) true (Dst input None 1 (Ctx end_ [] [] [] [])) with
  | OK (_, Some e, s) => Err (e, c_warn (d_ctx s))
  | OK (t, None, s) =>
      let suffix := match d_err s with None => d_in s | Some _ => [] end in
      OK (Doc (c_prefix (d_ctx s)) (c_indent (d_ctx s)) suffix false t (c_warn (d_ctx s)))
  | Err e => match e with end
  | Panic => Panic
  | Hang => Hang
  end.

(** ** Writing *)

(** document.go:1212-1218 and 1223-1274: the escapes *)
Definition escape_numbered (b : byte) : bytes := [x26; x23] ++ FormatUint (b2N b) ++ [x3b].
Definition escape_byte (b : byte) : bytes :=
  match b with
  | x22 => str "&quot;" | x27 => str "&apos;" | x26 => str "&amp;" | x3c => str "&lt;" | x3e => str "&gt;"
  | _ =>
      if (((0x20 <=? b2N b) && (b2N b <=? 0x7e))%N || Byte.eqb b x0a || Byte.eqb b x0d) then [b]
      else escape_numbered b
  end.
(** document.go:1223-1274 escapeString *)
Fixpoint escapeString (s : bytes) (lead : bool) : bytes :=
  match s with
  | [] => []
  | b :: s =>
      if lead && isSpace b then escape_numbered b ++ escapeString s true
      else escape_byte b ++ escapeString s false
  end.

(** document.go:980-988 encoder: the document's Prefix and Indent, the nesting
    depth, the warnings, what is written so far. *)
Record est := Est { e_depth : Z; e_warn : list xerr; e_out : bytes }.
Definition put (s : est) (b : bytes) : est := Est (e_depth s) (e_warn s) (e_out s ++ b).
Definition e_warning (s : est) (msg : string) : est := Est (e_depth s) (e_warn s ++ [XMsg msg]) (e_out s).
(** document.go:1012-1022 checkName *)
Definition checkName (k : name_kind) (n : bytes) : bool := nonempty n && forallb (isNameByte k) n.
(** document.go:1190-1210 writeIndent *)
Definition writeIndent (prefix indent : bytes) (delta : Z) (notag : bool) (s : est) : est :=
  if negb (nonempty prefix) && negb (nonempty indent) then s
  else
    let d := if (delta <? 0)%Z then (e_depth s - 1)%Z else if (0 <? delta)%Z then (e_depth s + 1)%Z else e_depth s in
    let s := Est d (e_warn s) (e_out s) in
    if notag then s else put s (x0a :: prefix ++ concat (repeat indent (Z.to_nat d))).
(** document.go:1058-1069: the attributes *)
Fixpoint put_attrs (l : list (bytes * bytes)) (s : est) : est :=
  match l with
  | [] => s
  | (n, v) :: l =>
      put_attrs l
        (if checkName NameAttr n then put s ([x20] ++ n ++ [x3d; x22] ++ escapeString v false ++ [x22])
         else e_warning s "ignored attribute with malformed name")
  end.
(** document.go:1024-1139, 990-1010 encodeTag.  The writer never fails, so the result is
    whether the tag was written (1) or ignored (0). *)
Fixpoint encodeTag (prefix indent : bytes) (t : tag) (noTags noindent : bool) (s : est) {struct t} : bool * est :=
  let 'Tag start end_ attr empty comment cdata tx noind tags := t in
  if comment then (true, put s (str "<!--" ++ escapeString tx true ++ str "-->"))
  else if negb noTags && negb (checkName NameTag start) then (false, e_warning s "ignored tag with malformed start name")
  else
    let bad := negb noTags && negb (checkName NameTag end_) && nonempty end_ in
    let endName := if bad then start else end_ in
    let s := if bad then e_warning s "tag with malformed end name, used start name instead" else s in
    let s := if noTags then s else put_attrs attr (put s (x3c :: start)) in
    if negb noTags && empty then (true, put s [x2f; x3e])
    else
      let s := if noTags then s else put s [x3e] in
      let s := match cdata with None => s | Some c => put s (str "<![CDATA[" ++ c ++ str "]]>") end in
      let pretty := negb noindent && negb noind in
      let s := if pretty && nonempty tags then
                 if noTags then writeIndent prefix indent 0 true s else writeIndent prefix indent 1 false s
               else s in
      let s := put s (escapeString tx true) in
      let s := (fix go (l : list tag) (s : est) : est :=
                  match l with
                  | [] => s
                  | sub :: l =>
                      let '(wrote, s) := encodeTag prefix indent sub false (noindent || noind) s in
                      go l (if wrote && pretty then
                              match l with
                              | [] => if noTags then writeIndent prefix indent 0 true s else writeIndent prefix indent (-1) false s
                              | _ => writeIndent prefix indent 0 false s
                              end
                            else s)
                  end) tags s in
      (true, if noTags then s else put s ([x3c; x2f] ++ (if nonempty endName then endName else start) ++ [x3e])).
(** document.go:1277-1296 WriteTo: warnings and output.  Without a root tag the
    warning is appended to a copy of the list that is dropped (:1279). *)
Definition WriteTo (d : doc) : list xerr * bytes :=
  match doc_root d with
  | None => ([], [])
  | Some t =>
      let s := Est 0 [] (doc_prefix d) in
      let '(_, s) := encodeTag (doc_prefix d) (doc_indent d) t (doc_exclude d) (t_noindent t) s in
      (e_warn s, e_out s ++ doc_suffix d)
  end.
