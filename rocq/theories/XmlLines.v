(** XmlLines.v - the line numbers in the errors and warnings of the XML reader,
    and the errors of the reader of bytes. *)
From Verif Require Import Base XmlText XmlDoc XmlTotal SpecXmlText SpecXmlErrors.
From Verif Require XmlGrammar XmlGrammarTags.

Section Input.
Variable input : bytes.
Variable end_ : xerr.
Definition okerr (e : xerr) : Prop := e = end_ \/ syntax_error input e \/ unclosed input e.
Record J (s : dst) : Prop := {
  J_in : d_err s = None -> exists p, input = p ++ d_in s /\ d_line s = (1 + Z.of_nat (newlines p))%Z;
  J_line : a_line input (d_line s);
  J_err : forall e, d_err s = Some e -> okerr e;
  J_stk : Forall (a_tag_line input) (c_stack (d_ctx s));
  J_warn : Forall (syntax_error input) (c_warn (d_ctx s));
  J_end : c_end (d_ctx s) = end_ }.
(** An error other than io.EOF. *)
Definition fails (s : dst) : Prop := exists e, d_err s = Some e /\ e <> XEOF.

Lemma J_syntax s msg : J s -> syntax_error input (syntax s msg).
Proof. intros H. exists msg, (d_line s). split; [reflexivity|now apply J_line]. Qed.
Lemma J_fail s msg : J s -> J (fail s msg) /\ fails (fail s msg).
Proof.
  intros H. split.
  - pose proof H as [H1 H0 H2 H3 H4 H5]. constructor; auto; [discriminate|]. intros e [= <-]. right. left. now apply J_syntax.
  - eexists. split; [reflexivity|discriminate].
Qed.
Lemma J_set_err s e : J s -> okerr e -> J (set_err s (Some e)).
Proof. intros [H1 H0 H2 H3 H4 H5] H. constructor; auto; [discriminate|]. now intros x [= <-]. Qed.
Lemma J_warned s e : J s -> syntax_error input e -> J (add_warn s e).
Proof. intros [H1 H0 H2 H3 H4 H5] H. constructor; auto. cbn. apply Forall_app. auto. Qed.
Lemma J_prefix s p : J s -> J (set_prefix s p).
Proof. intros [H1 H0 H2 H3 H4 H5]. constructor; auto. Qed.
Lemma J_indent s p : J s -> J (set_indent s p).
Proof. intros [H1 H0 H2 H3 H4 H5]. constructor; auto. Qed.
Lemma J_stack s l : J s -> Forall (a_tag_line input) l -> J (set_stack s l).
Proof. intros [H1 H0 H2 H3 H4 H5] H. constructor; auto. Qed.

Lemma getc_back s b s' : getc s = (Some b, s') -> ungetc b s' = s.
Proof.
  unfold getc. destruct s as [i e l c]. cbn [d_err d_in d_line d_ctx]. destruct e; [discriminate|]. destruct i as [|a i]; [discriminate|].
  intros [= <- <-]. unfold ungetc, bump. cbn. f_equal. destruct (Byte.eqb a x0a); lia.
Qed.
Lemma mustgetc_some s b s' : mustgetc s = (Some b, s') -> getc s = (Some b, s').
Proof. unfold mustgetc. destruct (getc s) as [[a|] s1]; [auto|discriminate]. Qed.
(** the byte just read *)
Definition prev (b : byte) (s : dst) : Prop := exists p, input = p ++ b :: d_in s /\ d_line s = (1 + Z.of_nat (newlines (p ++ [b])))%Z.
Lemma getc_J s ob s' : J s -> getc s = (ob, s') -> J s' /\
  match ob with Some b => ungetc b s' = s /\ prev b s' /\ d_err s' = None /\ d_in s = b :: d_in s' | None => exists e, d_err s' = Some e end.
Proof.
  intros H E. destruct ob as [b|].
  - pose proof (getc_back _ _ _ E) as B. unfold getc in E. destruct (d_err s) eqn:Ee; [discriminate|]. destruct (d_in s) as [|a i] eqn:Ei; [discriminate|].
    injection E as <- <-. cbn [d_in d_err d_line d_ctx]. destruct H as [HJ _ H2 H3 H4 H5]. destruct (HJ Ee) as (p & Hi & Hl).
    assert (L : bump a (d_line s) = (1 + Z.of_nat (newlines (p ++ [a])))%Z).
    { rewrite XmlGrammar.newlines_app, Nat2Z.inj_add, XmlGrammar.newlines_cons, Hl. unfold bump. change (newlines []) with 0. destruct (Byte.eqb a x0a); lia. }
    split; [|split; [exact B|split; [|now split]]].
    + assert (A : input = (p ++ [a]) ++ i) by (rewrite <- app_assoc; cbn; now rewrite Hi, Ei).
      constructor; cbn; auto; [|eexists _, _; split; [exact A|exact L]|discriminate]. intros _. exists (p ++ [a]). now split.
    + exists p. split; [|exact L]. cbn. now rewrite Hi, Ei.
  - unfold getc in E. destruct (d_err s) eqn:Ee.
    + injection E as <-. split; [exact H|]. eauto.
    + destruct (d_in s) eqn:Ei; [|discriminate]. injection E as <-. split; [|eexists; reflexivity]. apply J_set_err; [exact H|]. left. apply H.
Qed.
Lemma mustgetc_J s ob s' : J s -> mustgetc s = (ob, s') -> J s' /\
  match ob with Some b => ungetc b s' = s /\ prev b s' /\ d_err s' = None /\ d_in s = b :: d_in s' | None => fails s' end.
Proof.
  intros H E. destruct ob as [b|]; [exact (getc_J _ _ _ H (mustgetc_some _ _ _ E))|].
  unfold mustgetc in E. destruct (getc s) as [[a|] s1] eqn:G; [discriminate|]. injection E as <-. destruct (getc_J _ _ _ H G) as [H1 [e He]]. rewrite He.
  destruct e; try (split; [exact H1|]; eexists; (split; [exact He|discriminate])). now apply J_fail.
Qed.

Definition post {A} (m : xm A) (R : A -> dst -> Prop) : Prop := forall a s', m = OK (a, s') -> J s' /\ R a s'.
Lemma post_ok {A} (a : A) s (R : A -> dst -> Prop) : J s -> R a s -> post (OK (a, s)) R.
Proof. intros H1 H2 a' s' [= <- <-]. auto. Qed.
Lemma post_bind {A B} (m : xm A) (k : A * dst -> xm B) (R : A -> dst -> Prop) Q :
  post m R -> (forall a s, J s -> R a s -> post (k (a, s)) Q) -> post (obind m k) Q.
Proof.
  intros Hm Hk b s' E. destruct m as [[a s]|[]| |]; [|discriminate E..]. destruct (Hm a s eq_refl) as [H1 H2]. exact (Hk a s H1 H2 b s' E).
Qed.
Lemma post_weak {A} (m : xm A) (R Q : A -> dst -> Prop) : post m R -> (forall a s, R a s -> Q a s) -> post m Q.
Proof. intros H HQ a s E. destruct (H a s E). auto. Qed.
Definition anyR {A} : A -> dst -> Prop := fun _ _ => True.

Ltac getc_ H :=
  match goal with
  | Hj : J ?s |- context [getc ?s] =>
      let G := fresh "G" in let s1 := fresh "s" in let J1 := fresh "J" in destruct (getc s) as [[?b|] s1] eqn:G;
      destruct (getc_J _ _ _ Hj G) as [J1 H]; cbn beta iota in H; clear G
  | Hj : J ?s |- context [mustgetc ?s] =>
      let G := fresh "G" in let s1 := fresh "s" in let J1 := fresh "J" in destruct (mustgetc s) as [[?b|] s1] eqn:G;
      destruct (mustgetc_J _ _ _ Hj G) as [J1 H]; cbn beta iota in H; clear G
  end.

Lemma match_from_J want : forall read s m s', J s -> J (fold_left (fun s b => ungetc b s) read s) -> match_from read want s = (m, s') -> J s'.
Proof.
  induction want as [|c want IH]; intros read s m s' H H0; cbn [match_from]; [now intros [= <- <-]|].
  getc_ G.
  - destruct G as (B & _). destruct (Byte.eqb b c).
    + apply IH; [assumption|]. cbn [fold_left]. now rewrite B.
    + intros [= <- <-]. now rewrite B.
  - now intros [= <- <-].
Qed.
Lemma match_J want s m s' : J s -> match_ want s = (m, s') -> J s'.
Proof. intros H. now apply match_from_J. Qed.
Lemma match_unget a want : a <> x0a -> forall read s s', J s -> J (ungetc a (fold_left (fun s b => ungetc b s) read s)) ->
  match_from read want s = (false, s') -> J (ungetc a s').
Proof.
  intros Ha. induction want as [|c want IH]; intros read s s' H H0; cbn [match_from]; [discriminate|].
  getc_ G.
  - destruct G as (B & _). destruct (Byte.eqb b c).
    + apply IH; [assumption|]. cbn [fold_left]. now rewrite B.
    + intros [= <-]. now rewrite B.
  - intros [= <-]. destruct G as [e Ee], J0 as [A1 A0 A2 A3 A4 A5]. constructor; auto; cbn; [congruence|].
    destruct (Byte.eqb a x0a) eqn:E; [apply XmlGrammar.eqb_eq in E; contradiction|exact A0].
Qed.
Lemma readSpace_loop_J fuel : forall buf s, J s -> post (readSpace_loop fuel buf s) anyR.
Proof.
  induction fuel as [|fuel IH]; intros buf s H; cbn [readSpace_loop]; [discriminate|]. getc_ G.
  - destruct (isSpace b); [now apply IH|]. destruct G as (-> & _). now apply post_ok.
  - now apply post_ok.
Qed.
Lemma readSpace_J s : J s -> post (readSpace s) anyR.
Proof. apply readSpace_loop_J. Qed.
(** what was skipped; io.EOF is then the first error *)
Lemma space_loop_J fuel : forall s, J s -> d_err s = None ->
  post (space_loop fuel s) (fun _ s' => exists w, Forall white w /\ d_in s = w ++ d_in s' /\ (d_err s' <> None -> d_in s' = [])).
Proof.
  induction fuel as [|fuel IH]; intros s H He; cbn [space_loop]; [discriminate|].
  destruct (getc s) as [[b|] s1] eqn:E; destruct (getc_J _ _ _ H E) as [H1 G].
  - destruct G as (B & _ & He1 & Ei). destruct (isSpace b) eqn:W.
    + eapply post_weak; [apply (IH s1 H1 He1)|]. cbv beta. intros _ s' (w & Hw & Ew & Hn). exists (b :: w). split; [constructor; [now apply XmlGrammar.white_iff|exact Hw]|].
      split; [now rewrite Ei, Ew|exact Hn].
    + rewrite B. apply post_ok; [exact H|]. exists []. split; [constructor|]. split; [reflexivity|]. intros N. now elim N.
  - apply post_ok; [exact H1|]. unfold getc in E. rewrite He in E. destruct (d_in s) eqn:Ei; [|discriminate]. injection E as <-.
    exists []. split; [constructor|]. split; [now cbn|]. intros _. exact Ei.
Qed.
Lemma space_J s : J s -> post (space s) anyR.
Proof.
  intros H. destruct (d_err s) eqn:E.
  - unfold space. cbn [space_loop fuel_of]. unfold getc. rewrite E. now apply post_ok.
  - eapply post_weak; [apply (space_loop_J _ s H E)|]. easy.
Qed.
Definition ended (st : Z) (s : dst) : Prop := ((st < 0)%Z -> fails s) /\ ((0 <= st)%Z -> d_err s = None /\ prev x3e s).
Lemma ignore_loop_J fuel : forall s, J s -> post (ignore_loop fuel s) ended.
Proof.
  induction fuel as [|fuel IH]; intros s H; cbn [ignore_loop]; [discriminate|]. getc_ G.
  - destruct (Byte.eqb b x3e) eqn:E; [|now apply IH]. apply XmlGrammar.eqb_eq in E as ->. apply post_ok; [assumption|]. split; [lia|]. intros _. now split.
  - apply post_ok; [assumption|]. split; [auto|lia].
Qed.
Lemma ignoreStartTag_J e s : J s -> syntax_error input e -> post (ignoreStartTag e s) ended.
Proof. intros H He. apply ignore_loop_J. now apply J_warned. Qed.
Lemma comment_loop_J fuel : forall buf s, J s -> post (comment_loop fuel buf s) (fun r s' => r = None -> fails s').
Proof.
  induction fuel as [|fuel IH]; intros buf s H; cbn [comment_loop]; [discriminate|]. getc_ G.
  - destruct (if Byte.eqb b x2d then match_ (str "->") s0 else (false, s0)) as [m s2] eqn:M.
    assert (J s2) by (destruct (Byte.eqb b x2d); [eapply match_J; [|exact M]; assumption|now injection M as <- <-]).
    destruct m; [|now apply IH]. now apply post_ok.
  - now apply post_ok.
Qed.
Lemma readName_loop_J fuel k : forall buf s, J s -> post (readName_loop fuel k buf s) (fun r s' => fst r = false -> fails s').
Proof.
  induction fuel as [|fuel IH]; intros buf s H; cbn [readName_loop]; [discriminate|]. getc_ G.
  - destruct (isNameByte k b); [now apply IH|]. destruct G as (-> & _). now apply post_ok.
  - now apply post_ok.
Qed.
Lemma readName_J k buf s : J s -> post (readName k buf s) (fun r s' => fst r = false -> fails s' \/ d_err s' = None).
Proof.
  intros H. unfold readName. destruct (mustgetc s) as [[b|] s1] eqn:E; destruct (mustgetc_J _ _ _ H E) as [H1 G].
  - destruct G as (B & _ & He & _). destruct (isNameByte k b).
    + eapply post_weak; [now apply readName_loop_J|]. cbv beta. auto.
    + rewrite B. apply post_ok; [exact H|]. intros _. right. apply mustgetc_some in E. unfold getc in E. now destruct (d_err s).
  - apply post_ok; auto.
Qed.
Lemma name_J k s : J s -> post (name k s) (fun r s' => r = None -> fails s' \/ d_err s' = None).
Proof.
  intros H. unfold name. eapply post_bind; [now apply readName_J|]. intros [ok buf] s1 H1 R. cbn [fst] in R.
  apply post_ok; [exact H1|]. destruct ok; [discriminate|]. auto.
Qed.
Definition none_fails {A} (r : option A) (s : dst) : Prop := r = None -> fails s.
Lemma digits_loop_J fuel hex : forall b acc s, J s -> J (ungetc b s) -> d_err s = None ->
  post (digits_loop fuel hex b acc s) (fun r s' => match r with None => fails s' | Some (_, b') => J (ungetc b' s') end).
Proof.
  induction fuel as [|fuel IH]; intros b acc s H Hu He; cbn [digits_loop]; [discriminate|]. destruct (is_digit hex b); [|now apply post_ok].
  getc_ G.
  - destruct G as (B & _ & He1 & _). apply IH; [assumption| |exact He1]. now rewrite B.
  - now apply post_ok.
Qed.
Lemma read_entity_J buf s : J s -> post (read_entity buf s) none_fails.
Proof.
  intros H. unfold read_entity. getc_ G; [|now apply post_ok]. destruct (Byte.eqb b x23).
  - clear G. getc_ G; [|now apply post_ok].
    destruct (if Byte.eqb b0 x78 then mustgetc s1 else (Some b0, s1)) as [ob s2] eqn:E.
    assert (A : J s2 /\ match ob with None => fails s2 | Some b' => J (ungetc b' s2) /\ d_err s2 = None end).
    { destruct (Byte.eqb b0 x78).
      - destruct (mustgetc_J _ _ _ J1 E) as [HA HB]. split; [exact HA|]. destruct ob; [|exact HB]. destruct HB as (-> & _ & ? & _). now split.
      - injection E as <- <-. split; [assumption|]. destruct G as (-> & _ & ? & _). now split. }
    destruct A as [J2 A]. destruct ob as [b'|]; [|now apply post_ok]. destruct A as [A1 A2].
    eapply post_bind; [now apply digits_loop_J|]. cbv beta. intros r s3 J3 R. destruct r as [[ds b'']|]; [|now apply post_ok].
    cbv zeta. destruct (Byte.eqb b'' x3b); [|now apply post_ok].
    destruct (ParseUint _ _ _) as [n|n|]; [destruct (n <=? 255)%N|..]; now apply post_ok.
  - destruct G as (B & _). rewrite B. eapply post_bind; [now apply readName_J|]. cbv beta. intros [ok nm] s1 J1 R. cbn [fst] in R.
    assert (C : post (match mustgetc s1 with
      | (Some b, s) => if Byte.eqb b x3b then match entity nm with Some r => OK (Some (buf ++ [r]), s) | None => OK (Some (buf ++ x26 :: nm ++ [x3b]), s) end
                       else OK (Some (buf ++ x26 :: nm), ungetc b s)
      | (None, s) => OK (None, s) end) (@none_fails bytes)).
    { getc_ G; [|now apply post_ok]. destruct (Byte.eqb b0 x3b).
      - destruct (entity nm); now apply post_ok.
      - destruct G as (-> & _). now apply post_ok. }
    destruct ok; [exact C|]. destruct (d_err s1) eqn:Ee; [|exact C]. apply post_ok; [exact J1|]. intros _. destruct (R eq_refl) as [F|F]; [exact F|congruence].
Qed.
Lemma text_loop_J fuel quote cdata : forall b0 b1 buf s, J s -> post (text_loop fuel quote cdata b0 b1 buf s) none_fails.
Proof.
  induction fuel as [|fuel IH]; intros b0 b1 buf s H; cbn [text_loop]; [discriminate|]. getc_ G.
  - destruct (_ && cdata); [destruct (length buf <? 2); [discriminate|]; now apply post_ok|].
    destruct (_ && _) in |- *; [destruct (J_fail s0 "unexpected ']]>'" J0); now apply post_ok|].
    destruct (Byte.eqb b x3c && negb cdata && _) eqn:E3c.
    { apply andb_prop in E3c as [E3c _]. apply andb_prop in E3c as [E3c _]. apply XmlGrammar.eqb_eq in E3c as ->. destruct G as (-> & _). now apply post_ok. }
    destruct (match quote with Some q => Byte.eqb b q | None => false end); [now apply post_ok|].
    destruct (Byte.eqb b x26 && negb cdata); [|now apply IH].
    eapply post_bind; [now apply read_entity_J|]. intros [r|] s1 J1 R; [now apply IH|]. now apply post_ok.
  - destruct G as [e Ee]. destruct cdata; [|now apply post_ok]. rewrite Ee.
    destruct e; try (apply post_ok; [assumption|]; intros _; eexists; (split; [exact Ee|discriminate])).
    destruct (J_fail s0 "unexpected EOF in CDATA section" J0). now apply post_ok.
Qed.
Lemma text_J quote cdata s : J s -> post (text quote cdata s) none_fails.
Proof. apply text_loop_J. Qed.
Lemma attrval_J s : J s -> post (attrval s) none_fails.
Proof.
  intros H. unfold attrval. getc_ G; [|now apply post_ok]. destruct (Byte.eqb b x22); [now apply text_J|].
  destruct (J_fail s0 "unquoted or missing attribute value in element" J0). now apply post_ok.
Qed.
Definition ended3 (r : Z * list (bytes * bytes) * bool) (s : dst) : Prop := ended (fst (fst r)) s.
Lemma failed3 st l e s : (st < 0)%Z -> fails s -> ended3 (st, l, e) s.
Proof. intros H F. split; cbn [fst]; [auto|lia]. Qed.
Lemma ignored3 e s l em : J s -> syntax_error input e ->
  post (' (st, s) <- ignoreStartTag e s ;; OK (st, l, em, s)) ended3.
Proof.
  intros H He. eapply post_bind; [now apply ignoreStartTag_J|]. intros st s1 J1 R. now apply post_ok.
Qed.
Lemma attrs_loop_J fuel : forall attrs s, J s -> post (attrs_loop fuel attrs s) ended3.
Proof.
  induction fuel as [|fuel IH]; intros attrs s H; cbn [attrs_loop]; [discriminate|].
  eapply post_bind; [now apply space_J|]. intros _ s1 J1 _. getc_ G; [|apply post_ok; [assumption|now apply failed3]].
  destruct (Byte.eqb b x2f).
  { clear G. getc_ G; [|apply post_ok; [assumption|now apply failed3]]. destruct (Byte.eqb b0 x3e) eqn:E.
    - apply XmlGrammar.eqb_eq in E as ->. apply post_ok; [assumption|]. split; cbn [fst]; [lia|]. now intros _.
    - apply ignored3; [assumption|now apply J_syntax]. }
  destruct (Byte.eqb b x3e) eqn:E.
  { apply XmlGrammar.eqb_eq in E as ->. apply post_ok; [assumption|]. split; cbn [fst]; [lia|]. now intros _. }
  destruct G as (-> & _). eapply post_bind; [now apply name_J|]. intros n s2 J2 R.
  destruct n as [n|]; [|apply ignored3; [assumption|now apply J_syntax]].
  eapply post_bind; [now apply space_J|]. intros _ s3 J3 _. getc_ G; [|apply post_ok; [assumption|now apply failed3]].
  destruct (Byte.eqb b0 x3d); [|apply ignored3; [assumption|now apply J_syntax]].
  eapply post_bind; [now apply space_J|]. intros _ s5 J5 _. eapply post_bind; [now apply attrval_J|]. intros [v|] s6 J6 R6; [now apply IH|].
  apply post_ok; [assumption|]. apply failed3; [lia|auto].
Qed.

Definition start_end (was : dst) (r : Z * bytes * list (bytes * bytes) * bool * bytes) (s : dst) : Prop :=
  let st := fst (fst (fst (fst r))) in
  ((st < 0)%Z -> fails s \/ d_err was <> None \/ d_in was = []) /\
  ((0 <= st)%Z -> st <> 2%Z -> d_err s = None /\ prev x3e s).
Lemma decodeStartTag_J s : J s -> post (decodeStartTag s) (start_end s).
Proof.
  intros H. unfold decodeStartTag.
  assert (F : forall n l e c s', fails s' -> start_end s ((-1)%Z, n, l, e, c) s') by (intros; split; cbn; [auto|lia]).
  destruct (getc s) as [[b|] s1] eqn:E; destruct (getc_J _ _ _ H E) as [H1 G].
  2:{ apply post_ok; [exact H1|]. split; cbn; [|lia]. intros _. right. unfold getc in E. destruct (d_err s); [left; discriminate|]. right. now destruct (d_in s). }
  destruct (negb _); [destruct (J_fail s1 "expected start tag" H1); apply post_ok; auto|]. clear G E.
  getc_ G; [|apply post_ok; auto]. destruct (Byte.eqb b0 x2f); [destruct (J_fail s0 "unexpected end tag" J0); apply post_ok; auto|].
  destruct (if Byte.eqb b0 x21 then match_ (str "--") s0 else (false, s0)) as [m s2] eqn:M.
  assert (J2 : J s2) by (destruct (Byte.eqb b0 x21); [eapply match_J; [|exact M]; assumption|now injection M as <- <-]).
  destruct m.
  { eapply post_bind; [now apply comment_loop_J|]. cbv beta. intros [c|] s3 J3 R3; [|apply post_ok; auto].
    apply post_ok; [exact J3|]. split; cbn; [lia|congruence]. }
  assert (J3 : J (ungetc b0 s2)).
  { destruct G as (B & _). destruct (Byte.eqb b0 x21) eqn:E21; [|injection M as <-; now rewrite B]. apply XmlGrammar.eqb_eq in E21 as ->.
    apply (match_unget x21 (str "--") ltac:(discriminate) [] s0 s2 J0); [|exact M]. cbn [fold_left]. now rewrite B. }
  eapply post_bind; [apply (name_J _ _ J3)|]. cbv beta. intros [n|] s4 J4 R4.
  - eapply post_bind; [apply (attrs_loop_J _ _ _ J4)|]. intros [[st l] e] s5 J5 [R1 R2]. cbn [fst] in *. apply post_ok; [exact J5|]. split; cbn; auto.
  - eapply post_bind; [apply (ignoreStartTag_J _ _ J4); now apply J_syntax|]. intros st s5 J5 [R1 R2]. apply post_ok; [exact J5|]. split; cbn; auto.
Qed.
Lemma cdata_open_J want : forall read s m s', J s -> J (fold_left (fun s b => ungetc b s) read s) -> cdata_open read want s = (m, s') ->
  J s' /\ (m = None -> d_err s <> None \/ exists r, want = d_in s ++ r /\ r <> []).
Proof.
  induction want as [|c want IH]; intros read s m s' H H0; cbn [cdata_open]; [now intros [= <- <-]|].
  destruct (getc s) as [[b|] s1] eqn:E; destruct (getc_J _ _ _ H E) as [H1 G].
  - destruct G as (B & _ & He & Hi). destruct (Byte.eqb b c) eqn:Ebc.
    + apply XmlGrammar.eqb_eq in Ebc as ->. intros EC. destruct (IH (c :: read) s1 m s' H1) as [H2 H3]; [cbn [fold_left]; now rewrite B|exact EC|].
      split; [exact H2|]. intros Hm. destruct (H3 Hm) as [N|(r & -> & Hr)]; [congruence|]. right. exists r. now rewrite Hi.
    + intros [= <- <-]. rewrite B. now split.
  - intros [= <- <-]. split; [exact H1|]. intros _. unfold getc in E. destruct (d_err s); [left; discriminate|]. right.
    destruct (d_in s); [|discriminate]. exists (c :: want). now split.
Qed.
Lemma decodeCData_J s : J s -> post (decodeCData s) (fun r s' => fst r = false -> fails s' \/ d_err s <> None \/ exists r, cdata_mark = d_in s ++ r /\ r <> []).
Proof.
  intros H. unfold decodeCData. destruct (cdata_open [] (str "<![CDATA[") s) as [m s1] eqn:E.
  destruct (cdata_open_J _ [] _ _ _ H H E) as [J1 R]. destruct m as [[|]|].
  - eapply post_bind; [apply (text_J _ _ _ J1)|]. intros [t|] s2 J2 R2; apply post_ok; try exact J2; cbn [fst]; [discriminate|]. intros _. left. now apply R2.
  - now apply post_ok.
  - apply post_ok; [exact J1|]. intros _. right. now apply R.
Qed.
Lemma decodeEndTag_J s : J s -> d_err s = None -> d_in s <> [] -> post (decodeEndTag s) (fun r s' => fst r = false -> fails s').
Proof.
  intros H He Hi. unfold decodeEndTag. destruct (getc s) as [[b|] s1] eqn:E; destruct (getc_J _ _ _ H E) as [H1 G].
  2:{ exfalso. unfold getc in E. rewrite He in E. destruct (d_in s); congruence. }
  assert (B : forall s msg n, J s -> post (OK ((false, n), fail s msg)) (fun (r : bool * bytes) s' => fst r = false -> fails s')).
  { intros s2 msg n J2. destruct (J_fail s2 msg J2). now apply post_ok. }
  destruct (negb _); [now apply B|]. clear G E. getc_ G; [|apply post_ok; [assumption|now intros _]].
  destruct (negb _); [now apply B|]. eapply post_bind; [now apply name_J|]. cbv beta. intros [n|] s2 J2 R2.
  - eapply post_bind; [now apply space_J|]. intros _ s3 J3 _. clear G. getc_ G; [|apply post_ok; [assumption|now intros _]].
    destruct (Byte.eqb b1 x3e); [now apply post_ok|now apply B].
  - destruct (R2 eq_refl) as [F|N].
    + destruct F as (e & Ee & Ne). rewrite Ee. apply post_ok; [exact J2|]. intros _. now exists e.
    + rewrite N. now apply B.
Qed.
Lemma detect_indent_J s : J s -> post (detect_indent s) anyR.
Proof.
  intros H. unfold detect_indent. eapply post_bind; [now apply readSpace_J|]. intros ind s1 J1 _.
  destruct (after_newline ind); [|now apply post_ok]. destruct (drop_prefix _ _); apply post_ok; try easy; [now apply J_indent|now apply J_prefix].
Qed.
Lemma content_space_J root s : J s -> post (content_space root s) anyR.
Proof.
  intros H. unfold content_space. destruct root.
  - eapply post_bind; [now apply detect_indent_J|]. intros _ s1 J1 _. now apply post_ok.
  - destruct (_ || _); [eapply post_bind; [now apply readSpace_J|]|eapply post_bind; [now apply space_J|]]; intros ? s1 J1 _; now apply post_ok.
Qed.
Definition reported {A} (r : A * option xerr) (s : dst) : Prop := forall e, snd r = Some e -> d_err s = Some e /\ (e = XEOF -> stops_early input).
Lemma fails_reported {A} (a : A) s : fails s -> reported (a, d_err s) s.
Proof. intros (e & Ee & Ne) x Hx. cbn [snd] in Hx. split; [exact Hx|congruence]. Qed.
Definition tag_J (fuel : nat) : Prop := forall s, 2 * len s + 2 <= fuel -> J s -> d_err s = None -> d_in s <> [] -> post (decodeTag fuel false s) reported.
Definition kids_J (fuel : nat) : Prop := forall tags s, 2 * len s + 3 <= fuel -> stk s <> [] -> J s -> post (kids fuel tags s) reported.
Lemma inside_J fuel root st start attrs s : kids_J fuel -> 2 * len s + 3 <= fuel -> J s -> d_err s = None -> prev x3e s ->
  post (XmlGrammarTags.inside fuel root st start attrs s) reported.
Proof.
  intros HK HF H He (p & Hp & Hl). unfold XmlGrammarTags.inside. cbv zeta.
  assert (T : a_tag_line input (d_line s)).
  { exists p, (d_in s). split; [exact Hp|]. rewrite Hl, XmlGrammar.newlines_app. change (newlines [x3e]) with 0. lia. }
  set (s0 := set_stack s _). assert (J0 : J s0) by (apply J_stack; [exact H|]; constructor; [exact T|apply H]).
  destruct (space_ran s0) as ([] & s1 & E1 & L1 & _). rewrite E1. cbn [obind]. destruct (space_loop_J _ s0 J0 He _ _ E1) as [J1 (w & Hw & Ew & Hn)].
  change (d_in s0) with (d_in s) in Ew.
  destruct (decodeCData_ran s1) as ([ok cd] & s2 & E2 & L2 & _). rewrite E2. cbn [obind]. destruct (decodeCData_J s1 J1 _ _ E2) as [J2 R]. cbn [fst] in R.
  destruct ok; cbn [negb].
  2:{ destruct (R eq_refl) as [F|S]; [apply post_ok; [exact J2|now apply fails_reported]|].
      apply post_ok; [exact J2|]. intros e Ee. cbn [snd] in Ee. split; [exact Ee|]. intros _. right.
      destruct S as [N|(r & Hr & Nr)].
      - exists p, w, [], cdata_mark. rewrite Hp, Ew, (Hn N). repeat split; [exact Hw|discriminate].
      - exists p, w, (d_in s1), r. rewrite Hp, Ew. repeat split; assumption. }
  assert (HN : exists ni s3, content_space root s2 = OK (ni, s3) /\ later s2 s3).
  { unfold content_space. destruct root; [|destruct (_ || _)].
    - destruct (detect_indent_ran s2) as (x & s6 & E & L & _). rewrite E. cbn. eauto.
    - destruct (readSpace_ran s2) as (x & s6 & E & L & _). rewrite E. cbn. eauto.
    - destruct (space_ran s2) as (x & s6 & E & L & _). rewrite E. cbn. eauto. }
  destruct HN as (ni & s3 & E3 & L3). rewrite E3. cbn [obind]. destruct (content_space_J root s2 J2 _ _ E3) as [J3 _].
  destruct (text_ran None false s3) as (tx & s4 & E4 & L4 & _). rewrite E4. cbn [obind]. destruct (text_J _ _ s3 J3 _ _ E4) as [J4 R4].
  destruct tx as [tx|].
  2:{ apply post_ok; [exact J4|]. apply fails_reported. now apply R4. }
  pose proof (later_trans _ _ _ (later_trans _ _ _ L1 L2) (later_trans _ _ _ L3 L4)) as [Len Stk]. change (len s0) with (len s) in Len.
  eapply post_bind; [apply HK; [lia|rewrite Stk; discriminate|exact J4]|]. cbv beta. intros [[[ts en]|] e] s5 J5 R5; [|apply post_ok; [exact J5|exact R5]].
  destruct (c_stack (d_ctx s5)) as [|l stk0] eqn:Es; [discriminate|]. apply post_ok; [|discriminate].
  apply J_stack; [exact J5|]. pose proof (J_stk _ J5) as K5. rewrite Es in K5. now inversion K5.
Qed.
Lemma tag_body_J fuel (root : bool) (s : dst) (p : bytes) : kids_J fuel -> J s -> 2 * len s + 1 <= fuel -> (d_err s <> None \/ d_in s = [] -> stops_early input) ->
  post ((let s := if nonempty p then set_prefix s p else s in
      ' (st, start, attrs, empty, comment, s) <- decodeStartTag s ;;
      if (st <? 0)%Z then OK (None : option tag, d_err s, s)
      else if (st =? 2)%Z then OK (Some (Tag [] [] [] false true None comment false []), None, s)
      else
        match (if root then root_check start attrs s else None) with
        | Some e => OK (None, Some e, set_err s (Some e))
        | None =>
            if empty then
              OK (if (st =? 0)%Z then None else Some (Tag start [] attrs true false None [] false []), None, s)
            else XmlGrammarTags.inside fuel root st start attrs s
        end) : xm (option tag * option xerr)) reported.
Proof.
  intros HK H HF HS. cbv zeta. set (s0 := if nonempty p then set_prefix s p else s). assert (J0 : J s0) by (unfold s0; destruct (nonempty p); [now apply J_prefix|exact H]).
  assert (HS0 : d_err s0 <> None \/ d_in s0 = [] -> stops_early input) by (unfold s0; destruct (nonempty p); exact HS).
  assert (L0 : len s0 = len s) by (unfold s0; destruct (nonempty p); reflexivity).
  destruct (decodeStartTag_ran s0) as (st & start & attrs & empty & cm & s1 & E & _ & _ & Hs). rewrite E. cbn [obind].
  destruct (decodeStartTag_J s0 J0 _ _ E) as [J1 [R1 R2]]. cbn [fst] in R1, R2.
  destruct (Z.ltb_spec st 0) as [H0|H0].
  { apply post_ok; [exact J1|]. destruct (R1 H0) as [F|S]; [now apply fails_reported|]. intros e Ee. split; [exact Ee|]. intros _. now apply HS0. }
  destruct (Z.eqb_spec st 2); [apply post_ok; [exact J1|discriminate]|]. destruct (R2 H0 n) as [He Hp].
  destruct (if root then root_check start attrs s1 else None) as [e|] eqn:Er.
  - destruct root; [|discriminate]. assert (A : syntax_error input e).
    { unfold root_check in Er. destruct (negb _); [injection Er as <-; now apply J_syntax|]. destruct (attr_value _ _); [|injection Er as <-; now apply J_syntax].
      destruct (ParseInt _ _) as [z| |]; [destruct (z <? 4)%Z; [|discriminate Er]|..]; injection Er as <-; now apply J_syntax. }
    apply post_ok; [apply J_set_err; [exact J1|right; now left]|]. intros x [= <-]. split; [reflexivity|]. intros ->. destruct A as (? & ? & [=] & _).
  - destruct empty; [apply post_ok; [exact J1|discriminate]|]. apply inside_J; auto. destruct (Hs H0). lia.
Qed.
Lemma tag_kids_J fuel : tag_J fuel /\ kids_J fuel.
Proof.
  induction fuel as [|fuel [HT HK]]; [split; intros ? **; discriminate|]. split.
  - intros s HF H He Hi. rewrite XmlGrammarTags.decodeTag_inside, He. cbn [lead_space obind].
    apply (tag_body_J fuel false s [] HK H); [lia|]. intros [N|N]; contradiction.
  - intros tags s HF Hne H. cbn [kids]. destruct (space_ran s) as ([] & s1 & E1 & L1 & _). rewrite E1. cbn [obind]. destruct (space_J s H _ _ E1) as [J1 _].
    destruct (getc s1) as [[b|] s2] eqn:E; destruct (getc_J _ _ _ J1 E) as [J2 G]; pose proof (getc_spec _ _ _ E) as S1; cbn beta iota in S1.
    2:{ cbv zeta. destruct S1 as [L2 _]. pose proof (later_trans _ _ _ L1 L2) as [_ Es]. unfold tag_error. pose proof (J_stk _ J2) as K2. unfold stk in *.
        destruct (c_stack (d_ctx s2)) as [|l l']; [congruence|]. inversion K2; subst. apply post_ok.
        - apply J_set_err; [exact J2|]. right. right. exists l. now split.
        - apply fails_reported. eexists. split; [reflexivity|discriminate]. }
    destruct S1 as (S1 & _). destruct (Byte.eqb b x3c) eqn:E3c; cbn [negb].
    2:{ destruct (J_fail s2 "expected tag" J2). apply post_ok; [assumption|now apply fails_reported]. }
    apply XmlGrammar.eqb_eq in E3c as ->. destruct G as (B & _ & _ & Hi1).
    destruct (mustgetc s2) as [[b|] s3] eqn:E3; destruct (mustgetc_J _ _ _ J2 E3) as [J3 G3].
    2:{ apply post_ok; [assumption|now apply fails_reported]. }
    destruct G3 as (B3 & _). assert (He1 : d_err s1 = None) by (unfold getc in E; destruct (d_err s1); [discriminate|reflexivity]).
    assert (Hi : d_in s1 <> []) by (rewrite Hi1; discriminate).
    destruct (Byte.eqb b x2f) eqn:E2f.
    + apply XmlGrammar.eqb_eq in E2f as ->. rewrite B3, B. eapply post_bind; [apply (decodeEndTag_J s1 J1 He1 Hi)|]. cbv beta. intros [ok n] s4 J4 R4. cbn [fst] in R4.
      destruct ok; apply post_ok; try exact J4; [discriminate|apply fails_reported; auto].
    + rewrite B3, B. destruct (proj1 (tag_kids_ran fuel) false s1) as (t & e & s4 & E4 & L4); [destruct L1; lia|]. rewrite E4. cbn [obind].
      destruct (HT s1 ltac:(destruct L1; lia) J1 He1 Hi _ _ E4) as [J4 R4]. destruct e as [e|]; [apply post_ok; [exact J4|]; intros x Hx; now apply R4|].
      destruct (strictly_r _ _ _ L1 (L4 eq_refl)) as [Len Stk]. apply HK; [lia|now rewrite Stk|exact J4].
Qed.
Lemma readSpace_all fuel : forall buf s, J s -> d_err s = None ->
  post (readSpace_loop fuel buf s) (fun _ s' => exists w, Forall white w /\ d_in s = w ++ d_in s' /\ (d_err s' <> None -> d_in s' = [])).
Proof.
  induction fuel as [|fuel IH]; intros buf s H He; cbn [readSpace_loop]; [discriminate|].
  destruct (getc s) as [[b|] s1] eqn:E; destruct (getc_J _ _ _ H E) as [H1 G].
  - destruct G as (B & _ & He1 & Ei). destruct (isSpace b) eqn:W.
    + eapply post_weak; [apply (IH _ s1 H1 He1)|]. cbv beta. intros _ s' (w & Hw & Ew & Hn). exists (b :: w). split; [constructor; [now apply XmlGrammar.white_iff|exact Hw]|].
      split; [now rewrite Ei, Ew|exact Hn].
    + rewrite B. apply post_ok; [exact H|]. exists []. split; [constructor|]. split; [reflexivity|]. intros N. now elim N.
  - apply post_ok; [exact H1|]. unfold getc in E. rewrite He in E. destruct (d_in s) eqn:Ei; [|discriminate]. injection E as <-.
    exists []. split; [constructor|]. split; [now cbn|]. intros _. exact Ei.
Qed.
Lemma ReadFrom_lines e ws : ReadFrom input end_ = Err (e, ws) ->
  okerr e /\ Forall (syntax_error input) ws /\ (e = XEOF -> stops_early input).
Proof.
  unfold ReadFrom. set (s := Dst input None 1 (Ctx end_ [] [] [] [])). set (fuel := 2 * length input + 3).
  replace (2 * length input + 4) with (S fuel) by (unfold fuel; lia).
  assert (H : J s).
  { constructor; cbn; auto; [intros _; exists []; now split|exists [], input; now split|discriminate]. }
  assert (P : post (decodeTag (S fuel) true s) reported).
  { rewrite XmlGrammarTags.decodeTag_inside. change (d_err s) with (@None xerr). unfold lead_space.
    destruct (readSpace_ran s) as (w & s1 & E & L & _). rewrite E. cbn [obind]. destruct (readSpace_all _ _ s H eq_refl _ _ E) as [J1 (u & Hu & Eu & Hn)].
    apply (tag_body_J fuel true s1 w (proj2 (tag_kids_J fuel)) J1); [destruct L as [L _]; unfold s in L; unfold len in *; cbn in L; unfold fuel; lia|].
    intros Hs. left. change (d_in s) with input in Eu. assert (N : d_in s1 = []) by (destruct Hs; auto). rewrite Eu, N, app_nil_r. exact Hu. }
  destruct (decodeTag (S fuel) true s) as [[[t [x|]] s']|[]| |] eqn:E; try discriminate. intros [= <- <-].
  destruct (P _ _ eq_refl) as [J1 R]. destruct (R x eq_refl) as [R1 R2]. split; [exact (J_err _ J1 _ R1)|]. split; [exact (J_warn _ J1)|exact R2].
Qed.
End Input.
