(** XmlWriter.v - model of the encoder of /repo/rbxlx/document.go over a
    bufio.Writer on a writer that may fail.  XmlDoc.v WriteTo is the same encoder
    with a writer that accepts everything. *)
From Verif Require Import Base RbxValues Tree RbxlWriter XmlText XmlDoc XmlCodec.

Section W.
Context {E : Type}.
(** io.ErrShortWrite *)
Variable short : E.
Variable w : writer E.

(** bufio.Writer: the calls of Write made so far, the buffer, the sticky error *)
Record buf := Buf { b_calls : list (call E); b_buf : bytes; b_err : option E }.
Definition bsize : nat := 4096.                  (* bufio.defaultBufSize *)

(** Writer.Flush *)
Definition bFlush (b : buf) : buf :=
  match b_err b, b_buf b with
  | Some _, _ => b
  | None, [] => b
  | None, p =>
      let '(n, e) := w (b_calls b) p in
      let cs := b_calls b ++ [Call p n e] in
      match (match e with None => if n <? length p then Some short else None | _ => e end) with
      | None => Buf cs [] None
      | Some e => Buf cs (skipn n p) (Some e)
      end
  end.
(** Writer.Write; the fuel covers the loop *)
Fixpoint bWrite (fuel : nat) (p : bytes) (b : buf) : buf :=
  match fuel, b_err b with
  | _, Some _ => b
  | O, None => b
  | S fuel, None =>
      let avail := (bsize - length (b_buf b))%nat in
      if length p <=? avail then Buf (b_calls b) (b_buf b ++ p) None
      else
        match b_buf b with
        | [] =>
            let '(n, e) := w (b_calls b) p in
            bWrite fuel (skipn n p) (Buf (b_calls b ++ [Call p n e]) [] e)
        | _ => bWrite fuel (skipn avail p) (bFlush (Buf (b_calls b) (b_buf b ++ firstn avail p) None))
        end
  end.
(** Writer.WriteString (Go 1.18; later releases hand long strings over to a
    writer that has WriteString) *)
Fixpoint bWriteString (fuel : nat) (p : bytes) (b : buf) : buf :=
  match fuel, b_err b with
  | _, Some _ => b
  | O, None => b
  | S fuel, None =>
      let avail := (bsize - length (b_buf b))%nat in
      if length p <=? avail then Buf (b_calls b) (b_buf b ++ p) None
      else bWriteString fuel (skipn avail p) (bFlush (Buf (b_calls b) (b_buf b ++ firstn avail p) None))
  end.
(** Writer.WriteByte *)
Definition bWriteByte (x : byte) (b : buf) : buf :=
  match b_err b with
  | Some _ => b
  | None =>
      let b := if bsize - length (b_buf b) <=? 0 then bFlush b else b in
      match b_err b with
      | Some _ => b
      | None => Buf (b_calls b) (b_buf b ++ [x]) None
      end
  end.
Definition write_op (p : bytes) : buf -> buf := bWrite (S (S (length p))) p.
Definition string_op (p : bytes) : buf -> buf := bWriteString (S (S (length p))) p.

(** document.go:980-988 encoder.  The count n is not modelled. *)
Record enc := Enc { w_buf : buf; w_depth : Z; w_warn : list xerr; w_err : option E }.
Definition w_warning (msg : String.string) (s : enc) : enc := Enc (w_buf s) (w_depth s) (w_warn s ++ [XMsg msg]) (w_err s).

(** document.go:1141-1188 write, writeByte, writeString, flush: the error of the
    bufio.Writer becomes the error of the encoder; they return [good] *)
Definition guarded (o : buf -> buf) (s : enc) : enc :=
  match w_err s with
  | Some _ => s
  | None => let b := o (w_buf s) in Enc b (w_depth s) (w_warn s) (b_err b)
  end.
Definition good (s : enc) : bool := match w_err s with None => true | Some _ => false end.
Definition eWrite (p : bytes) : enc -> enc := guarded (write_op p).
Definition eString (p : bytes) : enc -> enc := guarded (string_op p).
Definition eByte (x : byte) : enc -> enc := guarded (bWriteByte x).
Definition eFlush : enc -> enc := guarded bFlush.

(** document.go:1190-1210 writeIndent, which calls the bufio.Writer directly *)
Definition raw (o : buf -> buf) (s : enc) : enc := Enc (o (w_buf s)) (w_depth s) (w_warn s) (w_err s).
Definition eIndent (prefix indent : bytes) (delta : Z) (notag : bool) (s : enc) : enc :=
  if negb (nonempty prefix) && negb (nonempty indent) then s
  else
    let d := if (delta <? 0)%Z then (w_depth s - 1)%Z else if (0 <? delta)%Z then (w_depth s + 1)%Z else w_depth s in
    let s := Enc (w_buf s) d (w_warn s) (w_err s) in
    if notag then s
    else
      let s := raw (bWriteByte x0a) s in
      let s := if nonempty prefix then raw (string_op prefix) s else s in
      if nonempty indent then fold_left (fun s _ => raw (string_op indent) s) (repeat tt (Z.to_nat d)) s else s.

(** document.go:1223-1274 escapeString; [run] is s[last:i-1] *)
Definition is_literal (b : byte) : bool := bytes_eqb (escape_byte b) [b].
Fixpoint eEscape (run s : bytes) (lead : bool) (e : enc) : enc :=
  match s with
  | [] => eString run e
  | b :: s =>
      if lead && isSpace b then eEscape [] s true (eWrite (escape_numbered b) (eString run e))
      else if is_literal b then eEscape (run ++ [b]) s false e
      else eEscape [] s false (eWrite (escape_byte b) (eString run e))
  end.

(** document.go:1058-1069 *)
Fixpoint eAttrs (l : list (bytes * bytes)) (s : enc) : enc :=
  match l with
  | [] => s
  | (n, v) :: l =>
      eAttrs l
        (if checkName NameAttr n
         then eByte x22 (eEscape [] v false (eByte x22 (eByte x3d (eString n (eByte x20 s)))))
         else w_warning "ignored attribute with malformed name"%string s)
  end.
(** document.go:1004-1010 encodeText, :990-1002 encodeCData *)
Definition eText (tx : bytes) (s : enc) : enc := eFlush (eEscape [] tx true s).
Definition eCData (c : option bytes) (s : enc) : enc :=
  match c with
  | None => s
  | Some c => eFlush (eString (str "]]>") (eWrite c (eString (str "<![CDATA[") s)))
  end.

(** document.go:1024-1139 encodeTag: -1, 0, 1 *)
Inductive tres := TFail | TSkip | TDone.
Fixpoint eTag (prefix indent : bytes) (t : tag) (noTags noindent : bool) (s : enc) {struct t} : tres * enc :=
  let 'Tag start end_ attr empty comment cdata tx noind tags := t in
  if negb (good s) then (TFail, s)                                             (* :1025 *)
  else if comment then                                                         (* :1029 *)
    let s := eString (str "<!--") s in
    if negb (good s) then (TFail, s) else
    let s := eText tx s in
    if negb (good s) then (TFail, s) else
    let s := eString (str "-->") s in
    if negb (good s) then (TFail, s) else (TDone, s)
  else if negb noTags && negb (checkName NameTag start) then (TSkip, w_warning "ignored tag with malformed start name"%string s)
  else
    let bad := negb noTags && negb (checkName NameTag end_) && nonempty end_ in
    let endName := if bad then start else end_ in
    let s := if bad then w_warning "tag with malformed end name, used start name instead"%string s else s in
    let s := if noTags then s else eAttrs attr (eString start (eByte x3c s)) in
    if negb noTags && empty then                                               (* :1071 *)
      let s := eFlush (eByte x3e (eByte x2f s)) in
      if negb (good s) then (TFail, s) else (TDone, s)
    else
      let s := if noTags then s else eFlush (eByte x3e s) in                   (* :1080 *)
      if negb noTags && negb (good s) then (TFail, s) else
      let s := eCData cdata s in                                               (* :1086 *)
      if (match cdata with None => false | Some _ => negb (good s) end) then (TFail, s) else
      let pretty := negb noindent && negb noind in
      let s := if pretty && nonempty tags then
                 if noTags then eIndent prefix indent 0 true s else eIndent prefix indent 1 false s
               else s in
      let s := eText tx s in                                                   (* :1100 *)
      if negb (good s) then (TFail, s) else
      let '(ok, s) := (fix go (l : list tag) (s : enc) : bool * enc :=
                  match l with
                  | [] => (true, s)
                  | sub :: l =>
                      match eTag prefix indent sub false (noindent || noind) s with
                      | (TFail, s) => (false, s)
                      | (TSkip, s) => go l s
                      | (TDone, s) =>
                          go l (if pretty then
                                  match l with
                                  | [] => if noTags then eIndent prefix indent 0 true s else eIndent prefix indent (-1) false s
                                  | _ => eIndent prefix indent 0 false s
                                  end
                                else s)
                      end
                  end) tags s in
      if negb ok then (TFail, s) else
      if noTags then (TDone, s)
      else
        let s := eFlush (eByte x3e (eString (if nonempty endName then endName else start) (eByte x2f (eByte x3c s)))) in
        if negb (good s) then (TFail, s) else (TDone, s).

(** document.go:1277-1296 WriteTo: the calls made, the warnings, the error *)
Definition WriteTo_w (d : doc) : list (call E) * list xerr * option E :=
  match doc_root d with
  | None => ([], [], None)
  | Some t =>
      let s := eString (doc_prefix d) (Enc (Buf [] [] None) 0 [] None) in
      match eTag (doc_prefix d) (doc_indent d) t (doc_exclude d) (t_noindent t) s with
      | (TFail, s) => (b_calls (w_buf s), w_warn s, w_err s)
      | (_, s) =>
          let s := eFlush (eString (doc_suffix d) s) in
          (b_calls (w_buf s), w_warn s, w_err s)
      end
  end.

(** format.go:76-99 Encode to a writer: the error is wrapped (:95) *)
Definition xml_encode_w (fuel : nat) (env : xenv) (rnd : nat -> bytes) (e : xencoder) (h : heap) (r : option root)
  : outcome Empty_set (list (call E) * list xerr * option E * heap) :=
  ' (t, h) <- codec_write env rnd fuel (x_opts e) h r ;;
  let indent := if negb (nonempty (x_indent e)) && negb (x_nodefault e) then [x09] else x_indent e in
  OK (WriteTo_w (Doc (x_prefix e) indent (x_suffix e) (x_noroot e) (Some t) []), h).
End W.
