(** XmlWriterProofs.v - the XML encoder with a failing writer keeps in step with
    the one whose writer accepts everything. *)
From Verif Require Import Base RbxValues Tree RbxlWriter SpecWriter RbxlWriterProofs XmlText XmlDoc XmlCodec XmlLayout XmlWriter.
From Coq Require Import Lia.

Section S.
Context {E : Type}.
Variable short : E.
Variable w : writer E.
Hypothesis Hw : contract w.

Definition blive (b : @buf E) (out : bytes) : Prop :=
  b_err b = None /\ Forall whole (b_calls b) /\ delivered (b_calls b) ++ b_buf b = out /\ (length (b_buf b) <= bsize)%nat.
Definition bdead (b : @buf E) (out : bytes) : Prop :=
  exists before last e x, b_calls b = before ++ [last] /\ Forall whole before /\ c_err last = Some e /\ w before (c_arg last) = (c_n last, c_err last) /\ b_err b = Some e /\
    out = delivered (b_calls b) ++ x.
Definition bsync (b : @buf E) (out : bytes) : Prop := blive b out \/ bdead b out.

Lemma bdead_more b out q : bdead b out -> bdead b (out ++ q).
Proof. intros (be & la & e & x & H1 & H2 & H3 & H3' & H4 & ->). exists be, la, e, (x ++ q). rewrite app_assoc. repeat split; auto. Qed.
Lemma bdead_err b out : bdead b out -> b_err b <> None.
Proof. intros (be & la & e & x & H1 & H2 & H3 & H3' & H4 & _). congruence. Qed.
Lemma bsync_err b out : bsync b out -> b_err b <> None -> bdead b out.
Proof. intros [(H & _)|H] Hn; [congruence|exact H]. Qed.

Lemma flush_sync b out : bsync b out ->
  bsync (bFlush short w b) out /\ (b_err (bFlush short w b) = None -> b_buf (bFlush short w b) = []).
Proof.
  intros [(H1 & H2 & H3 & H4)|H].
  - unfold bFlush. rewrite H1. destruct (b_buf b) as [|x p] eqn:Eb.
    { split; [left; repeat split; auto; rewrite ?Eb; auto|intros; exact Eb]. }
    destruct (Hw (b_calls b) (x :: p)) as [B1 B2]. destruct (w (b_calls b) (x :: p)) as [n e] eqn:Ew; cbn [fst snd] in *.
    destruct e as [e|].
    + split; [|discriminate]. right. exists (b_calls b), (Call (x :: p) n (Some e)), e, (skipn n (x :: p)).
      cbn [b_calls b_err c_err]. repeat split; auto. rewrite delivered_app, <- H3, <- app_assoc. f_equal.
      unfold delivered. cbn [flat_map c_n c_arg]. rewrite app_nil_r, firstn_skipn. reflexivity.
    + specialize (B2 eq_refl). subst n. rewrite Nat.ltb_irrefl. split; [|reflexivity]. left. repeat split; cbn [b_err b_calls b_buf].
      * apply Forall_app. split; [assumption|]. constructor; [split; reflexivity|constructor].
      * rewrite delivered_app, app_nil_r, <- H3. f_equal. unfold delivered. cbn [flat_map c_n c_arg]. rewrite app_nil_r. apply firstn_all.
      * cbn. lia.
  - pose proof (bdead_err b out H) as Hn. unfold bFlush. destruct (b_err b) as [e|] eqn:Ee; [|congruence].
    split; [right; exact H|congruence].
Qed.
Definition steady (o : buf -> buf) : Prop := forall b : @buf E, b_err b <> None -> o b = b.
Definition writes (o : buf -> buf) (q : bytes) : Prop := steady o /\ forall b out, bsync b out -> bsync (o b) (out ++ q).

Lemma flush_steady : steady (bFlush short w).
Proof. intros b H. unfold bFlush. destruct (b_err b); [reflexivity|congruence]. Qed.
Lemma bstring_small fuel p b out : blive b out -> (length p <= bsize - length (b_buf b))%nat -> (0 < fuel)%nat ->
  bsync (bWriteString short w fuel p b) (out ++ p).
Proof.
  intros (H1 & H2 & H3 & H4) Hp Hf. destruct fuel as [|fuel]; [lia|]. cbn [bWriteString]. rewrite H1.
  replace (length p <=? bsize - length (b_buf b)) with true by (symmetry; apply Nat.leb_le; exact Hp).
  left. repeat split; cbn [b_err b_calls b_buf]; auto.
  - rewrite app_assoc, H3. reflexivity.
  - rewrite app_length. lia.
Qed.
Lemma bstring_steady fuel p : steady (bWriteString short w fuel p).
Proof. intros b H. destruct fuel; cbn [bWriteString]; destruct (b_err b); congruence. Qed.
Lemma fill_sync b out p : blive b out ->
  bsync (bFlush short w (Buf (b_calls b) (b_buf b ++ firstn (bsize - length (b_buf b)) p) None)) (out ++ firstn (bsize - length (b_buf b)) p) /\
  (b_err (bFlush short w (Buf (b_calls b) (b_buf b ++ firstn (bsize - length (b_buf b)) p) None)) = None ->
   b_buf (bFlush short w (Buf (b_calls b) (b_buf b ++ firstn (bsize - length (b_buf b)) p) None)) = []).
Proof.
  intros (H1 & H2 & H3 & H4). apply flush_sync. left. repeat split; cbn [b_err b_calls b_buf]; auto.
  - rewrite app_assoc, H3. reflexivity.
  - rewrite app_length, firstn_length. lia.
Qed.
Lemma bstring_sync fuel : forall p b out, bsync b out ->
  ((length p + 2 <= fuel)%nat \/ (b_buf b = [] /\ (length p + 1 <= fuel)%nat)) ->
  bsync (bWriteString short w fuel p b) (out ++ p).
Proof.
  induction fuel as [|fuel IH]; intros p b out Hs Hf; [lia|].
  destruct Hs as [Hl|Hd].
  2:{ rewrite bstring_steady by (eapply bdead_err; exact Hd). right. apply bdead_more, Hd. }
  destruct (Nat.leb_spec (length p) (bsize - length (b_buf b))) as [Hp|Hp]; [apply bstring_small; auto; lia|].
  pose proof Hl as (H1 & _). cbn [bWriteString]. rewrite H1.
  replace (length p <=? bsize - length (b_buf b)) with false by (symmetry; apply Nat.leb_gt; exact Hp).
  destruct (fill_sync b out p Hl) as [F1 F2].
  replace (out ++ p) with ((out ++ firstn (bsize - length (b_buf b)) p) ++ skipn (bsize - length (b_buf b)) p)
    by (rewrite <- app_assoc, firstn_skipn; reflexivity).
  destruct (b_err (bFlush short w (Buf (b_calls b) (b_buf b ++ firstn (bsize - length (b_buf b)) p) None))) eqn:Eb.
  - rewrite bstring_steady by congruence. destruct F1 as [F1|F1]; [destruct F1; congruence|]. right. apply bdead_more, F1.
  - apply IH; [exact F1|]. right. split; [apply F2, eq_refl|]. rewrite skipn_length.
    destruct Hf as [Hf|[Hb Hf]]; [lia|]. rewrite Hb in *. cbn [length] in *. unfold bsize in *. lia.
Qed.
Lemma string_writes p : writes (string_op short w p) p.
Proof. split; [apply bstring_steady|]. intros b out H. apply bstring_sync; [exact H|lia]. Qed.

Lemma bwrite_steady fuel p : steady (bWrite short w fuel p).
Proof. intros b H. destruct fuel; cbn [bWrite]; destruct (b_err b); congruence. Qed.
Lemma bwrite_small fuel p b out : blive b out -> (length p <= bsize - length (b_buf b))%nat -> (0 < fuel)%nat ->
  bsync (bWrite short w fuel p b) (out ++ p).
Proof.
  intros (H1 & H2 & H3 & H4) Hp Hf. destruct fuel as [|fuel]; [lia|]. cbn [bWrite]. rewrite H1.
  replace (length p <=? bsize - length (b_buf b)) with true by (symmetry; apply Nat.leb_le; exact Hp).
  left. repeat split; cbn [b_err b_calls b_buf]; auto.
  - rewrite app_assoc, H3. reflexivity.
  - rewrite app_length. lia.
Qed.
Lemma bwrite_empty fuel p b out : bsync b out -> b_buf b = [] -> (2 <= fuel)%nat ->
  bsync (bWrite short w fuel p b) (out ++ p).
Proof.
  intros [Hl|Hd] Hb Hf.
  2:{ rewrite bwrite_steady by (eapply bdead_err; exact Hd). right. apply bdead_more, Hd. }
  destruct (Nat.leb_spec (length p) (bsize - length (b_buf b))) as [Hp|Hp]; [apply bwrite_small; auto; lia|].
  destruct fuel as [|fuel]; [lia|]. pose proof Hl as (H1 & H2 & H3 & H4). cbn [bWrite]. rewrite H1.
  replace (length p <=? bsize - length (b_buf b)) with false by (symmetry; apply Nat.leb_gt; exact Hp).
  rewrite Hb in *. rewrite app_nil_r in H3. destruct (Hw (b_calls b) p) as [B1 B2]. destruct (w (b_calls b) p) as [n e] eqn:Ew; cbn [fst snd] in *.
  destruct e as [e|].
  - rewrite bwrite_steady by (cbn; discriminate). right. exists (b_calls b), (Call p n (Some e)), e, (skipn n p).
    cbn [b_calls b_err c_err]. repeat split; auto. rewrite delivered_app, <- H3, <- app_assoc. f_equal.
    unfold delivered. cbn [flat_map c_n c_arg]. rewrite app_nil_r, firstn_skipn. reflexivity.
  - specialize (B2 eq_refl). subst n. rewrite skipn_all. rewrite <- (app_nil_r (out ++ p)).
    apply bwrite_small; [|cbn; lia|lia]. repeat split; cbn [b_err b_calls b_buf].
    + apply Forall_app. split; [assumption|]. constructor; [split; reflexivity|constructor].
    + rewrite delivered_app, app_nil_r, <- H3. f_equal. unfold delivered. cbn [flat_map c_n c_arg]. rewrite app_nil_r. apply firstn_all.
    + cbn. lia.
Qed.
Lemma write_writes p : writes (write_op short w p) p.
Proof.
  split; [apply bwrite_steady|]. unfold write_op. intros b out [Hl|Hd].
  2:{ rewrite bwrite_steady by (eapply bdead_err; exact Hd). right. apply bdead_more, Hd. }
  destruct (Nat.leb_spec (length p) (bsize - length (b_buf b))) as [Hp|Hp]; [apply bwrite_small; auto; lia|].
  destruct (b_buf b) as [|x0 l0] eqn:Eb; [apply bwrite_empty; [left; exact Hl|exact Eb|lia]|].
  remember (S (length p)) as fuel eqn:Ef. pose proof Hl as (H1 & _). cbn [bWrite]. rewrite H1, Eb.
  replace (length p <=? bsize - length (x0 :: l0)) with false by (symmetry; apply Nat.leb_gt; exact Hp).
  destruct (fill_sync b out p Hl) as [F1 F2]. rewrite Eb in F1, F2.
  replace (out ++ p) with ((out ++ firstn (bsize - length (x0 :: l0)) p) ++ skipn (bsize - length (x0 :: l0)) p)
    by (rewrite <- app_assoc, firstn_skipn; reflexivity).
  set (b1 := bFlush short w _) in *.
  destruct (b_err b1) eqn:E1.
  - rewrite bwrite_steady by congruence. right. apply bdead_more. apply (bsync_err _ _ F1). congruence.
  - apply bwrite_empty; [exact F1|auto|lia].
Qed.
Lemma byte_writes x : writes (bWriteByte short w x) [x].
Proof.
  split. { intros b H. unfold bWriteByte. destruct (b_err b); congruence. }
  intros b out [Hl|Hd].
  2:{ pose proof (bdead_err _ _ Hd) as Hn. unfold bWriteByte. destruct (b_err b) eqn:E1; [|congruence]. right. apply bdead_more, Hd. }
  pose proof Hl as (H1 & H2 & H3 & H4). unfold bWriteByte. rewrite H1.
  destruct (bsize - length (b_buf b) <=? 0) eqn:E0.
  - destruct (flush_sync b out (or_introl Hl)) as [F1 F2]. destruct (b_err (bFlush short w b)) eqn:E1.
    + right. apply bdead_more. apply (bsync_err _ _ F1). congruence.
    + destruct F1 as [(G1 & G2 & G3 & G4)|F1]; [|apply bdead_err in F1; congruence]. specialize (F2 eq_refl).
      left. repeat split; cbn [b_err b_calls b_buf]; auto.
      * rewrite app_assoc, G3. reflexivity.
      * rewrite F2. cbn. unfold bsize. lia.
  - rewrite H1. apply Nat.leb_gt in E0. left. repeat split; cbn [b_err b_calls b_buf]; auto.
    + rewrite app_assoc, H3. reflexivity.
    + rewrite app_length. cbn. lia.
Qed.

(** ** The encoder *)
Definition Sync (s : @enc E) (p : est) : Prop :=
  w_depth s = e_depth p /\ w_warn s = e_warn p /\ bsync (w_buf s) (e_out p) /\ (w_err s = None \/ w_err s = b_err (w_buf s)).

Lemma guarded_sync o q s p : writes o q -> Sync s p -> Sync (guarded o s) (put p q).
Proof.
  intros [Ho1 Ho2] (H1 & H2 & H3 & H4). unfold guarded. destruct (w_err s) as [e|] eqn:Ee.
  - repeat split; auto. cbn [put e_out]. right. destruct H4 as [H4|H4]; [discriminate|]. apply bdead_more. apply (bsync_err _ _ H3). congruence.
    rewrite Ee. right. destruct H4; congruence.
  - repeat split; auto. cbn [w_buf]. apply Ho2, H3. 
Qed.
Lemma put_nil p : put p [] = p.
Proof. destruct p. unfold put. cbn. rewrite app_nil_r. reflexivity. Qed.
Lemma raw_sync o q s p : writes o q -> Sync s p -> Sync (raw o s) (put p q).
Proof.
  intros [Ho1 Ho2] (H1 & H2 & H3 & H4). unfold raw. repeat split; auto. apply Ho2, H3. cbn [w_err w_buf].
  destruct (w_err s) as [e|] eqn:Ee; [|auto]. right. destruct H4 as [H4|H4]; [discriminate|]. rewrite (Ho1 (w_buf s)) by congruence. exact H4.
Qed.
Lemma eflush_sync s p : Sync s p -> Sync (eFlush short w s) p.
Proof.
  intros H. rewrite <- (put_nil p). unfold eFlush. apply guarded_sync; [|exact H]. split; [apply flush_steady|].
  intros b out Hb. rewrite app_nil_r. apply flush_sync, Hb.
Qed.
Lemma eflush_done s p : Sync s p -> w_err (eFlush short w s) = None ->
  b_err (w_buf (eFlush short w s)) = None /\ b_buf (w_buf (eFlush short w s)) = [].
Proof.
  intros (H1 & H2 & H3 & H4). unfold eFlush, guarded. destruct (w_err s) as [e|] eqn:Ee; [congruence|]. cbn [w_err w_buf].
  intros Hn. split; [exact Hn|]. destruct (flush_sync _ _ H3) as [_ F]. auto.
Qed.
Lemma estring_sync q s p : Sync s p -> Sync (eString short w q s) (put p q).
Proof. apply guarded_sync, string_writes. Qed.
Lemma ewrite_sync q s p : Sync s p -> Sync (eWrite short w q s) (put p q).
Proof. apply guarded_sync, write_writes. Qed.
Lemma ebyte_sync q s p : Sync s p -> Sync (eByte short w q s) (put p [q]).
Proof. apply guarded_sync, byte_writes. Qed.
Lemma warning_sync m s p : Sync s p -> Sync (w_warning m s) (e_warning p m).
Proof. intros (H1 & H2 & H3 & H4). repeat split; auto. cbn. rewrite H2. reflexivity. Qed.

Lemma bytes_eqb_eq' a b : bytes_eqb a b = true -> a = b.
Proof. apply bytes_eqb_eq. Qed.
Lemma escape_sync tx : forall run lead s p, Sync s p ->
  Sync (eEscape short w run tx lead s) (put p (run ++ escapeString tx lead)).
Proof.
  induction tx as [|b tx IH]; intros run lead s p H; cbn [eEscape escapeString].
  - rewrite app_nil_r. apply estring_sync, H.
  - destruct (lead && isSpace b)%bool.
    + rewrite app_assoc, <- put_put. change (escapeString tx true) with ([] ++ escapeString tx true). apply IH.
      rewrite <- put_put. apply ewrite_sync, estring_sync, H.
    + destruct (is_literal b) eqn:El.
      * apply bytes_eqb_eq' in El. rewrite El, app_assoc. apply IH, H.
      * rewrite app_assoc, <- put_put. change (escapeString tx false) with ([] ++ escapeString tx false). apply IH.
        rewrite <- put_put. apply ewrite_sync, estring_sync, H.
Qed.
Lemma escape_sync0 tx lead s p : Sync s p -> Sync (eEscape short w [] tx lead s) (put p (escapeString tx lead)).
Proof. exact (escape_sync tx [] lead s p). Qed.
Lemma attrs_sync l : forall s p, Sync s p -> Sync (eAttrs short w l s) (put_attrs l p).
Proof.
  induction l as [|[n v] l IH]; intros s p H; cbn [eAttrs put_attrs]; [exact H|]. apply IH.
  destruct (checkName NameAttr n); [|apply warning_sync, H].
  change ([x20] ++ n ++ [x3d; x22] ++ escapeString v false ++ [x22]) with ([x20] ++ n ++ [x3d] ++ [x22] ++ escapeString v false ++ [x22]).
  rewrite <- !put_put. apply ebyte_sync, escape_sync0, ebyte_sync, ebyte_sync, estring_sync, ebyte_sync, H.
Qed.
Lemma text_sync tx s p : Sync s p -> Sync (eText short w tx s) (put p (escapeString tx true)).
Proof. intros H. unfold eText. apply eflush_sync. exact (escape_sync tx [] true s p H). Qed.
Definition put_cdata (c : option bytes) (p : est) : est :=
  match c with None => p | Some c => put p (str "<![CDATA[" ++ c ++ str "]]>") end.
Lemma cdata_sync c s p : Sync s p -> Sync (eCData short w c s) (put_cdata c p).
Proof.
  intros H. destruct c as [c|]; [|exact H]. cbn [eCData put_cdata]. apply eflush_sync. rewrite <- !put_put.
  apply estring_sync, ewrite_sync, estring_sync, H.
Qed.
Lemma repeat_sync indent n : forall s p, Sync s p ->
  Sync (fold_left (fun s _ => raw (string_op short w indent) s) (repeat tt n) s) (put p (concat (repeat indent n))).
Proof.
  induction n as [|n IH]; intros s p H; cbn [repeat fold_left concat].
  - rewrite put_nil. exact H.
  - rewrite <- put_put. apply IH. apply raw_sync; [apply string_writes|exact H].
Qed.
Lemma indent_sync prefix indent d nt s p : Sync s p ->
  Sync (eIndent short w prefix indent d nt s) (writeIndent prefix indent d nt p).
Proof.
  intros H. unfold eIndent, writeIndent. destruct (negb (nonempty prefix) && negb (nonempty indent))%bool; [exact H|].
  pose proof H as (H1 & H2 & H3 & H4). rewrite H1.
  set (dd := if (d <? 0)%Z then _ else _). 
  assert (H' : Sync (Enc (w_buf s) dd (w_warn s) (w_err s)) (Est dd (e_warn p) (e_out p))) by (repeat split; auto).
  destruct nt; [exact H'|]. 
  change (x0a :: prefix ++ concat (repeat indent (Z.to_nat dd))) with ([x0a] ++ prefix ++ concat (repeat indent (Z.to_nat dd))).
  rewrite <- !put_put. cbn [w_depth].
  assert (H5 : Sync (raw (bWriteByte short w x0a) (Enc (w_buf s) dd (w_warn s) (w_err s))) (put (Est dd (e_warn p) (e_out p)) [x0a]))
    by (apply raw_sync; [apply byte_writes|exact H']).
  assert (H6 : Sync (if nonempty prefix then raw (string_op short w prefix) (raw (bWriteByte short w x0a) (Enc (w_buf s) dd (w_warn s) (w_err s)))
                     else raw (bWriteByte short w x0a) (Enc (w_buf s) dd (w_warn s) (w_err s))) (put (put (Est dd (e_warn p) (e_out p)) [x0a]) prefix)).
  { destruct prefix as [|x l]; cbn [nonempty]; [rewrite put_nil; exact H5|apply raw_sync; [apply string_writes|exact H5]]. }
  destruct indent as [|x l] eqn:Ei; cbn [nonempty].
  - assert (C : forall n, concat (repeat ([] : bytes) n) = []) by (induction n; auto). rewrite C, put_nil. exact H6.
  - apply repeat_sync. exact H6.
Qed.

(** What is ahead only grows *)
Definition ext (p q : est) : Prop := (exists x, e_out q = e_out p ++ x) /\ exists y, e_warn q = e_warn p ++ y.
Lemma ext_refl p : ext p p.
Proof. split; exists []; rewrite app_nil_r; reflexivity. Qed.
Lemma ext_trans a b c : ext a b -> ext b c -> ext a c.
Proof. intros [(x & X) (y & Y)] [(z & Z) (t & T)]. split; [exists (x ++ z)|exists (y ++ t)]; rewrite ?Z, ?T, ?X, ?Y, app_assoc; reflexivity. Qed.
Lemma ext_put p q : ext p (put p q).
Proof. split; [exists q|exists []]; cbn; rewrite ?app_nil_r; reflexivity. Qed.
Lemma ext_warning p m : ext p (e_warning p m).
Proof. split; [exists []|exists [XMsg m]]; cbn; rewrite ?app_nil_r; reflexivity. Qed.
Lemma ext_indent prefix indent d nt p : ext p (writeIndent prefix indent d nt p).
Proof.
  unfold writeIndent. destruct (_ && _)%bool; [apply ext_refl|]. destruct nt; [split; exists []; cbn; rewrite app_nil_r; reflexivity|].
  eapply ext_trans; [|apply ext_put]. split; exists []; cbn; rewrite app_nil_r; reflexivity.
Qed.
Lemma ext_attrs l : forall p, ext p (put_attrs l p).
Proof.
  induction l as [|[n v] l IH]; intros p; cbn [put_attrs]; [apply ext_refl|]. eapply ext_trans; [|apply IH].
  destruct (checkName NameAttr n); [apply ext_put|apply ext_warning].
Qed.
Lemma ext_cdata c p : ext p (put_cdata c p).
Proof. destruct c; [apply ext_put|apply ext_refl]. Qed.

Section Kids.
Variables prefix indent : bytes.
Definition pgo (noTags noindent' pretty : bool) : list tag -> est -> est :=
  fix go (l : list tag) (s : est) : est :=
    match l with
    | [] => s
    | sub :: l =>
        let '(wrote, s) := encodeTag prefix indent sub false noindent' s in
        go l (if wrote && pretty then
                match l with
                | [] => if noTags then writeIndent prefix indent 0 true s else writeIndent prefix indent (-1) false s
                | _ => writeIndent prefix indent 0 false s
                end
              else s)
    end.
Definition ego (noTags noindent' pretty : bool) : list tag -> enc -> bool * enc :=
  fix go (l : list tag) (s : enc) : bool * enc :=
    match l with
    | [] => (true, s)
    | sub :: l =>
        match eTag short w prefix indent sub false noindent' s with
        | (TFail, s) => (false, s)
        | (TSkip, s) => go l s
        | (TDone, s) =>
            go l (if pretty then
                    match l with
                    | [] => if noTags then eIndent short w prefix indent 0 true s else eIndent short w prefix indent (-1) false s
                    | _ => eIndent short w prefix indent 0 false s
                    end
                  else s)
        end
    end.
Definition Fail (s : @enc E) (p : est) : Prop :=
  w_err s <> None /\ w_err s = b_err (w_buf s) /\ bdead (w_buf s) (e_out p) /\ exists y, e_warn p = w_warn s ++ y.
Lemma sync_fail s p q : Sync s p -> good s = false -> ext p q -> Fail s q.
Proof.
  intros (H1 & H2 & H3 & H4) Hg [(x & X) (y & Y)]. unfold good in Hg. destruct (w_err s) as [e|] eqn:Ee; [|discriminate].
  destruct H4 as [H4|H4]; [discriminate|]. unfold Fail. rewrite Ee. repeat split; auto; [discriminate| |].
  - rewrite X. apply bdead_more. apply (bsync_err _ _ H3). congruence.
  - exists y. rewrite Y, H2. reflexivity.
Qed.
Lemma fail_ext s p q : Fail s p -> ext p q -> Fail s q.
Proof.
  intros (H1 & H2 & H3 & (y & H4)) [(x & X) (z & Z)]. repeat split; auto.
  - rewrite X. apply bdead_more, H3.
  - exists (y ++ z). rewrite Z, H4, app_assoc. reflexivity.
Qed.
Definition P0 (t : tag) : Prop := forall noTags ni p, ext p (snd (encodeTag prefix indent t noTags ni p)).
Definition P (t : tag) : Prop := P0 t /\
  forall noTags ni s p, Sync s p ->
    (fst (eTag short w prefix indent t noTags ni s) = TFail /\ Fail (snd (eTag short w prefix indent t noTags ni s)) (snd (encodeTag prefix indent t noTags ni p))) \/
    (fst (eTag short w prefix indent t noTags ni s) = (if fst (encodeTag prefix indent t noTags ni p) then TDone else TSkip) /\
     Sync (snd (eTag short w prefix indent t noTags ni s)) (snd (encodeTag prefix indent t noTags ni p))).
Lemma pgo_ext nt ni pr l : Forall P0 l -> forall p, ext p (pgo nt ni pr l p).
Proof.
  induction 1 as [|sub l Hs _ IH]; intros p; cbn [pgo]; [apply ext_refl|]. specialize (Hs false ni p).
  destruct (encodeTag prefix indent sub false ni p) as [wr q]. cbn [snd] in Hs. eapply ext_trans; [exact Hs|].
  eapply ext_trans; [|apply IH]. destruct (wr && pr)%bool; [|apply ext_refl].
  destruct l; [destruct nt|]; apply ext_indent.
Qed.
Lemma ego_sync nt ni pr l : Forall P l -> forall s p, Sync s p ->
  (fst (ego nt ni pr l s) = false /\ Fail (snd (ego nt ni pr l s)) (pgo nt ni pr l p)) \/
  (fst (ego nt ni pr l s) = true /\ Sync (snd (ego nt ni pr l s)) (pgo nt ni pr l p)).
Proof.
  induction 1 as [|sub l [He Hs] HF IH]; intros s p H; cbn [ego pgo]; [right; auto|]. specialize (Hs false ni s p H).
  destruct (eTag short w prefix indent sub false ni s) as [r s1], (encodeTag prefix indent sub false ni p) as [wr q]. cbn [fst snd] in Hs.
  destruct Hs as [(-> & Hf)|(-> & Hs)].
  - left. cbn [fst snd]. split; [reflexivity|]. eapply fail_ext; [exact Hf|]. eapply ext_trans; [|apply pgo_ext; eapply Forall_impl; [|exact HF]; intros ? [? _]; assumption].
    destruct (wr && pr)%bool; [|apply ext_refl]. destruct l; [destruct nt|]; apply ext_indent.
  - destruct wr; cbn [andb]; [|apply IH, Hs]. apply IH. destruct pr; [|exact Hs].
    destruct l; [destruct nt|]; apply indent_sync, Hs.
Qed.
End Kids.

Lemma good_spec s : good s = false -> negb (@good E s) = true.
Proof. intros ->. reflexivity. Qed.
Lemma tag_ext prefix indent t : P0 prefix indent t.
Proof.
  induction t as [start end_ attr empty comment cdata tx noind tags IH] using tag_ind'.
    intros nt ni p. cbn [encodeTag]. destruct comment; [apply ext_put|].
    destruct (negb nt && negb (checkName NameTag start))%bool; [apply ext_warning|].
    set (bad := (negb nt && negb (checkName NameTag end_) && nonempty end_)%bool).
    set (p1 := if bad then _ else p).
    assert (X1 : ext p p1) by (unfold p1; destruct bad; [apply ext_warning|apply ext_refl]).
    set (p2 := if nt then p1 else put_attrs attr (put p1 (x3c :: start))).
    assert (X2 : ext p1 p2) by (unfold p2; destruct nt; [apply ext_refl|eapply ext_trans; [apply ext_put|apply ext_attrs]]).
    destruct (negb nt && empty)%bool.
    { cbn [snd]. eapply ext_trans; [exact X1|]. eapply ext_trans; [exact X2|apply ext_put]. }
    set (p3 := if nt then p2 else put p2 [x3e]).
    assert (X3 : ext p2 p3) by (unfold p3; destruct nt; [apply ext_refl|apply ext_put]).
    match goal with |- context [match cdata with None => p3 | Some c => _ end] => change (match cdata with None => p3 | Some c => put p3 (str "<![CDATA[" ++ c ++ str "]]>") end) with (put_cdata cdata p3) end.
    set (p4 := put_cdata cdata p3). assert (X4 : ext p3 p4) by apply ext_cdata.
    set (pretty := (negb ni && negb noind)%bool).
    set (p5 := if (pretty && nonempty tags)%bool then _ else p4).
    assert (X5 : ext p4 p5) by (unfold p5; destruct (pretty && nonempty tags)%bool; [destruct nt; apply ext_indent|apply ext_refl]).
    cbn [snd].
    match goal with |- context [?g tags (put p5 (escapeString tx true))] => change (g tags (put p5 (escapeString tx true))) with (pgo prefix indent nt (ni || noind) pretty tags (put p5 (escapeString tx true))) end.
    pose proof (pgo_ext prefix indent nt (ni || noind) pretty tags IH (put p5 (escapeString tx true))) as X6.
    eapply ext_trans; [exact X1|]. eapply ext_trans; [exact X2|]. eapply ext_trans; [exact X3|]. eapply ext_trans; [exact X4|].
    eapply ext_trans; [exact X5|]. eapply ext_trans; [apply ext_put|]. eapply ext_trans; [exact X6|].
    destruct nt; [apply ext_refl|apply ext_put].
Qed.
Lemma tag_sync prefix indent t : P prefix indent t.
Proof.
  induction t as [start end_ attr empty comment cdata tx noind tags IH] using tag_ind'. split; [apply tag_ext|].
  intros nt ni s p H.
  pose proof (tag_ext prefix indent (Tag start end_ attr empty comment cdata tx noind tags) nt ni p) as X.
  destruct (good s) eqn:G0.
  2:{ left. cbn [eTag]. rewrite G0. cbn [negb fst snd]. split; [reflexivity|]. eapply sync_fail; eassumption. }
  cbn [eTag]. rewrite G0. cbn [negb]. clear X. cbn [encodeTag]. destruct comment.
  { pose proof (estring_sync (str "<!--") s p H) as H1.
    destruct (good (eString short w (str "<!--") s)) eqn:G1; cbn [negb].
    2:{ left. cbn [fst snd]. split; [reflexivity|]. eapply sync_fail; [exact H1|exact G1|]. rewrite <- put_put. apply ext_put. }
    pose proof (text_sync tx _ _ H1) as H2. rewrite put_put in H2.
    destruct (good (eText short w tx (eString short w (str "<!--") s))) eqn:G2; cbn [negb].
    2:{ left. cbn [fst snd]. split; [reflexivity|]. eapply sync_fail; [exact H2|exact G2|].
        rewrite app_assoc, <- (put_put p (str "<!--" ++ escapeString tx true)). apply ext_put. }
    pose proof (estring_sync (str "-->") _ _ H2) as H3. rewrite put_put, <- app_assoc in H3.
    match goal with |- context [if negb (good ?x) then _ else _] => destruct (good x) eqn:G3 end; cbn [negb fst snd].
    - right. auto.
    - left. split; [reflexivity|]. eapply sync_fail; [exact H3|exact G3|apply ext_refl]. }
  destruct (negb nt && negb (checkName NameTag start))%bool; [right; split; [reflexivity|apply warning_sync, H]|].
  set (bad := (negb nt && negb (checkName NameTag end_) && nonempty end_)%bool).
  set (p1 := if bad then _ else p). set (s1 := if bad then _ else s).
  assert (X1 : Sync s1 p1) by (unfold p1, s1; destruct bad; [apply warning_sync, H|exact H]).
  set (p2 := if nt then p1 else put_attrs attr (put p1 (x3c :: start))). set (s2 := if nt then s1 else _).
  assert (X2 : Sync s2 p2).
  { unfold p2, s2; destruct nt; [exact X1|]. apply attrs_sync. change (x3c :: start) with ([x3c] ++ start). rewrite <- put_put.
    apply estring_sync, ebyte_sync, X1. }
  clearbody p2 s2. clear p1 s1 X1 H G0 s p.
  destruct (negb nt && empty)%bool.
  { assert (H : Sync (eFlush short w (eByte short w x3e (eByte short w x2f s2))) (put p2 [x2f; x3e])).
    { apply eflush_sync. change [x2f; x3e] with ([x2f] ++ [x3e]). rewrite <- put_put. apply ebyte_sync, ebyte_sync, X2. }
    match goal with |- context [if negb (good ?x) then _ else _] => destruct (good x) eqn:G3 end; cbn [negb fst snd].
    - right. auto.
    - left. split; [reflexivity|]. eapply sync_fail; [exact H|exact G3|apply ext_refl]. }
  set (p3 := if nt then p2 else put p2 [x3e]). set (s3 := if nt then s2 else _).
  assert (X3 : Sync s3 p3) by (unfold p3, s3; destruct nt; [exact X2|apply eflush_sync, ebyte_sync, X2]).
  clearbody p3 s3. clear X2 s2 p2.
  change (match cdata with None => p3 | Some c => put p3 (str "<![CDATA[" ++ c ++ str "]]>") end) with (put_cdata cdata p3).
  set (p4 := put_cdata cdata p3). assert (E4 : ext p3 p4) by apply ext_cdata.
  set (pretty := (negb ni && negb noind)%bool).
  set (p5 := if (pretty && nonempty tags)%bool then _ else p4).
  assert (E5 : ext p4 p5) by (unfold p5; destruct (pretty && nonempty tags)%bool; [destruct nt; apply ext_indent|apply ext_refl]).
  match goal with |- context [?g tags (put p5 (escapeString tx true))] => change (g tags (put p5 (escapeString tx true))) with (pgo prefix indent nt (ni || noind) pretty tags (put p5 (escapeString tx true))) end.
  set (p6 := put p5 (escapeString tx true)). assert (E6 : ext p5 p6) by apply ext_put.
  set (p7 := pgo prefix indent nt (ni || noind) pretty tags p6).
  assert (E7 : ext p6 p7) by (apply pgo_ext; eapply Forall_impl; [|exact IH]; intros ? [? _]; assumption).
  set (p8 := if nt then p7 else _). assert (E8 : ext p7 p8) by (unfold p8; destruct nt; [apply ext_refl|apply ext_put]).
  cbn [fst snd].
  assert (F6 : ext p6 p8) by (eapply ext_trans; eassumption).
  assert (F5 : ext p5 p8) by (eapply ext_trans; eassumption).
  assert (F4 : ext p4 p8) by (eapply ext_trans; eassumption).
  assert (F3 : ext p3 p8) by (eapply ext_trans; eassumption).
  destruct (negb nt && negb (good s3))%bool eqn:G3.
  { left. cbn [fst snd]. split; [reflexivity|]. eapply sync_fail; [exact X3| |exact F3]. destruct (good s3); [rewrite andb_false_r in G3; discriminate|reflexivity]. }
  pose proof (cdata_sync cdata _ _ X3) as X4. fold p4 in X4. set (s4 := eCData short w cdata s3) in *.
  destruct (match cdata with None => false | Some _ => negb (good s4) end) eqn:G4.
  { left. cbn [fst snd]. split; [reflexivity|]. eapply sync_fail; [exact X4| |exact F4]. destruct cdata; [destruct (good s4); [discriminate|reflexivity]|discriminate]. }
  set (s5 := if (pretty && nonempty tags)%bool then _ else s4).
  assert (X5 : Sync s5 p5).
  { unfold s5, p5. destruct (pretty && nonempty tags)%bool; [destruct nt; apply indent_sync, X4|exact X4]. }
  pose proof (text_sync tx _ _ X5) as X6. fold p6 in X6. set (s6 := eText short w tx s5) in *.
  destruct (good s6) eqn:G6; cbn [negb].
  2:{ left. cbn [fst snd]. split; [reflexivity|]. eapply sync_fail; [exact X6|exact G6|exact F6]. }
  match goal with |- context [?g tags s6] => change (g tags s6) with (ego prefix indent nt (ni || noind) pretty tags s6) end.
  pose proof (ego_sync prefix indent nt (ni || noind) pretty tags IH s6 p6 X6) as X7. fold p7 in X7.
  destruct (ego prefix indent nt (ni || noind) pretty tags s6) as [ok s7]; cbn [fst snd] in X7.
  destruct X7 as [(-> & X7)|(-> & X7)]; cbn [negb].
  { left. cbn [fst snd]. split; [reflexivity|]. eapply fail_ext; eassumption. }
  unfold p8. destruct nt; [right; auto|].
  set (en := if nonempty _ then _ else start).
  assert (X8 : Sync (eFlush short w (eByte short w x3e (eString short w en (eByte short w x2f (eByte short w x3c s7))))) (put p7 ([x3c; x2f] ++ en ++ [x3e]))).
  { apply eflush_sync. change ([x3c; x2f] ++ en ++ [x3e]) with ([x3c] ++ [x2f] ++ en ++ [x3e]). rewrite <- !put_put.
    apply ebyte_sync, estring_sync, ebyte_sync, ebyte_sync, X7. }
  match goal with |- context [if negb (good ?x) then _ else _] => destruct (good x) eqn:G8 end; cbn [negb fst snd].
  - right. auto.
  - left. split; [reflexivity|]. eapply sync_fail; [exact X8|exact G8|apply ext_refl].
Qed.

Lemma writeto_sync d calls ws e : WriteTo_w short w d = (calls, ws, e) ->
  (e = None /\ Forall whole calls /\ delivered calls = snd (WriteTo d) /\ ws = fst (WriteTo d)) \/
  (exists before last x, e <> None /\ calls = before ++ [last] /\ Forall whole before /\ c_err last = e /\ w before (c_arg last) = (c_n last, e) /\
     snd (WriteTo d) = delivered calls ++ x /\ exists y, fst (WriteTo d) = ws ++ y).
Proof.
  unfold WriteTo_w, WriteTo. destruct (doc_root d) as [t|].
  2:{ intros K. inversion K; subst. left. repeat split; constructor. }
  set (p0 := Est 0 [] (doc_prefix d)).
  assert (X0 : Sync (eString short w (doc_prefix d) (Enc (Buf [] [] None) 0 [] None)) p0).
  { change p0 with (put (Est 0 [] []) (doc_prefix d)). apply estring_sync. repeat split; auto. left. repeat split; auto; [constructor|apply Nat.le_0_l]. }
  destruct (tag_sync (doc_prefix d) (doc_indent d) t) as [_ T].
  specialize (T (doc_exclude d) (t_noindent t) _ _ X0).
  destruct (eTag short w (doc_prefix d) (doc_indent d) t (doc_exclude d) (t_noindent t) (eString short w (doc_prefix d) (Enc (Buf [] [] None) 0 [] None))) as [r s1].
  destruct (encodeTag (doc_prefix d) (doc_indent d) t (doc_exclude d) (t_noindent t) p0) as [wr p1]. cbn [fst snd] in *.
  assert (FAIL : forall s, Fail s (put p1 (doc_suffix d)) -> (b_calls (w_buf s), w_warn s, w_err s) = (calls, ws, e) ->
     exists before last x, e <> None /\ calls = before ++ [last] /\ Forall whole before /\ c_err last = e /\ w before (c_arg last) = (c_n last, e) /\
     e_out p1 ++ doc_suffix d = delivered calls ++ x /\ exists y, e_warn p1 = ws ++ y).
  { intros s (F1 & F2 & (be & la & e0 & x & B1 & B2 & B3 & B3' & B4 & B5) & y & F4) K. inversion K; subst.
    exists be, la, x. repeat split; auto; [congruence|congruence|]. exists y. exact F4. }
  destruct T as [(-> & T)|(Hr & T)].
  - intros K. right. apply (FAIL s1); [|exact K]. eapply fail_ext; [exact T|apply ext_put].
  - assert (K' : r <> TFail) by (destruct wr; subst r; discriminate). intros K.
    assert (K2 : (b_calls (w_buf (eFlush short w (eString short w (doc_suffix d) s1))), w_warn (eFlush short w (eString short w (doc_suffix d) s1)),
                  w_err (eFlush short w (eString short w (doc_suffix d) s1))) = (calls, ws, e)) by (destruct r; [congruence|exact K|exact K]).
    clear K. pose proof (estring_sync (doc_suffix d) _ _ T) as X1. pose proof (eflush_sync _ _ X1) as X2.
    pose proof (eflush_done _ _ X1) as X3.
    set (s2 := eFlush short w (eString short w (doc_suffix d) s1)) in *.
    destruct (w_err s2) as [e0|] eqn:Ee.
    + right. apply (FAIL s2); [|rewrite Ee; exact K2]. eapply sync_fail; [exact X2|unfold good; rewrite Ee; reflexivity|apply ext_refl].
    + left. destruct (X3 eq_refl) as [Y1 Y2]. inversion K2; subst. destruct X2 as (D1 & D2 & [(L1 & L2 & L3 & L4)|L] & D4).
      * repeat split; auto. rewrite Y2, app_nil_r in L3. exact L3.
      * apply bdead_err in L. congruence.
Qed.
End S.
