(** PropErrText.v - C105: the texts of errors and warnings. *)
From Verif Require Import Base RbxlValues RbxlArrays RbxlModel RbxlFile RbxValues Tree RbxlCodec RbxlApi XmlText XmlTextProofs Errors SpecErrors PropErrors RbxlDump SpecDump DumpProofs PropDecode PropDump ErrText SpecErrText.

(** ** Wrapping *)
Lemma OK_inj {E A} (x y : A) : @OK E A x = OK y -> x = y.
Proof. now intros [= H]. Qed.
Lemma Some_inj {A} (x y : A) : Some x = Some y -> x = y.
Proof. now intros [= H]. Qed.
(** The text of an error ends with the text of everything it wraps. *)
Theorem C105_wraps : forall de e d t, wraps e d -> gtext de e = OK t ->
  exists p u, gtext de d = OK u /\ t = p ++ u.
Proof.
  intros de e d t W. revert t. induction W as [e|e c d Hu W IH]; intros t Ht; [exists [], t; auto|].
  assert (exists p u, gtext de c = OK u /\ t = p ++ u) as (p & u & Hc & ->).
  { destruct e as [m|i c'|b [c'|]|[c'|]|[c'|]|off [c'|]|i sg [c'|]]; try discriminate Hu; apply Some_inj in Hu; subst c'; cbn [gtext] in Ht;
      destruct (gtext de c) as [u|?| |]; try discriminate Ht; cbn [obind] in Ht; apply OK_inj in Ht; subst t.
    - exists (str "#" ++ count i ++ str ": "), u. split; [reflexivity|now rewrite <- !app_assoc].
    - exists (str "type " ++ tid_name (tid_of_byte b) ++ str " (0x" ++ verb_X b ++ str "): "), u. split; [reflexivity|now rewrite <- !app_assoc].
    - exists (str "decoding XML: "), u. split; reflexivity.
    - exists (str "codec error: "), u. split; reflexivity.
    - exists ((str "data error" ++ (if (0 <=? off)%Z then str " at " ++ FormatInt off else [])) ++ str ": "), u. split; [reflexivity|apply app_assoc].
    - exists ((if (i <? 0)%Z then [] else str "#" ++ FormatInt i ++ str " ") ++ Quote de (sig_string sg) ++ str " chunk: "), u.
      split; [reflexivity|]. now rewrite <- !app_assoc. }
  destruct (IH u Hc) as (q & v & Hd & ->). exists (p ++ q), v. split; [exact Hd|now rewrite app_assoc].
Qed.
(** Formatting works for every error in which no cause was left out. *)
Theorem C105_total : forall de e, complete e -> exists t, gtext de e = OK t.
Proof.
  intros de e H. induction H as [m|i c _ [t IH]|b c _ [t IH]|c _ [t IH]|c _ [t IH]|o c _ [t IH]|i sg c _ [t IH]];
    cbn [gtext]; try rewrite IH; cbn [obind]; eauto.
Qed.
Fixpoint gsize (e : gerr) : nat :=
  match e with
  | GIndex _ c | GValue _ (Some c) | GXml (Some c) | GCodec (Some c) | GData _ (Some c) | GChunk _ _ (Some c) => S (gsize c)
  | _ => 0
  end.
(** Formatting panics exactly when a chunk error or a value error made without
    a cause is somewhere inside. *)
Theorem C105_panics : forall de e,
  (gtext de e = Panic <-> exists d, wraps e d /\ ((exists b, d = GValue b None) \/ (exists i sg, d = GChunk i sg None))) /\
  gtext de e <> Hang /\ (forall x, gtext de e <> Err x).
Proof.
  intros de e. split; [|split; [|intros []]].
  - split.
    + assert (Step : forall e c, gunwrap e = Some c -> (exists d, wraps c d /\ ((exists b, d = GValue b None) \/ (exists i sg, d = GChunk i sg None))) ->
        exists d, wraps e d /\ ((exists b, d = GValue b None) \/ (exists i sg, d = GChunk i sg None))).
      { intros e1 c Hu (d & W & H). exists d. split; [eapply wraps_in; eauto|exact H]. }
      revert e.
      assert (Sub : forall n e, gsize e <= n ->
          gtext de e = Panic -> exists d, wraps e d /\ ((exists b, d = GValue b None) \/ (exists i sg, d = GChunk i sg None))).
      { induction n as [|n IH]; intros e Hn H; destruct e as [m|i c|b [c|]|[c|]|[c|]|off [c|]|i sg [c|]]; try discriminate H; cbn [gsize] in Hn; try (exfalso; lia);
          try (eexists; split; [apply wraps_self|]; first [left; eexists; reflexivity|right; eexists _, _; reflexivity]);
          (eapply Step; [cbn [gunwrap]; reflexivity|]; apply IH; [lia|]; cbn [gtext] in H; destruct (gtext de c) as [u|[]| |]; cbn [obind] in H; try discriminate H; reflexivity). }
      intros e. now eapply Sub.
    + intros (d & W & H). induction W as [e|e c d Hu W IH]; [destruct H as [[b ->]|(i & sg & ->)]; reflexivity|].
      specialize (IH H). destruct e as [m|i c'|b [c'|]|[c'|]|[c'|]|off [c'|]|i sg [c'|]]; try discriminate Hu; apply Some_inj in Hu; subst c';
        cbn [gtext]; rewrite IH; reflexivity.
  - assert (Sub : forall n e, gsize e <= n ->
          gtext de e <> Hang).
    { induction n as [|n IH]; intros e0 Hn H; destruct e0 as [m|i c|b [c|]|[c|]|[c|]|off [c|]|i sg [c|]]; try discriminate H; cbn [gsize] in Hn; try (exfalso; lia);
        (apply (IH c); [lia|]; cbn [gtext] in H; destruct (gtext de c) as [u|[]| |]; cbn [obind] in H; try discriminate H; reflexivity). }
    now eapply Sub.
Qed.
Print Assumptions C105_panics.
Theorem C105_nil_cause_refuted : forall de i sg b,
  gtext de (GChunk i sg None) = Panic /\ gtext de (GValue b None) = Panic /\
  gtext de (GCodec (Some (GChunk i sg None))) = Panic /\ gtext de (GXml None) = OK (str "decoding XML").
Proof. repeat split. Qed.

(** ** What the decoder returns *)
Definition plainb (s : bytes) : bool := forallb (fun c => (0x20 <=? b2N c)%N) s.
Lemma plainb_spec s : plainb s = true -> clean_text s.
Proof. unfold plainb, clean_text. rewrite forallb_forall, Forall_forall. intros H c Hc. specialize (H c Hc). lia. Qed.
Lemma plain_app s t : clean_text s -> clean_text t -> clean_text (s ++ t).
Proof. intros. now apply Forall_app. Qed.
Lemma plain_uint n : clean_text (FormatUint n).
Proof.
  pose proof (FormatUint_dec n) as H. rewrite forallb_forall in H. apply Forall_forall. intros c Hc. specialize (H c Hc).
  destruct c; try discriminate H; vm_compute; discriminate.
Qed.
Lemma plain_int z : clean_text (FormatInt z).
Proof. unfold FormatInt. destruct (z <? 0)%Z; [constructor; [vm_compute; discriminate|]|]; apply plain_uint. Qed.
Lemma plain_X b : clean_text (verb_X b).
Proof. apply plainb_spec. now destruct b. Qed.
Lemma plain_upper b : clean_text (upper_byte b).
Proof. apply plainb_spec. now destruct b. Qed.
Lemma plain_hex b : clean_text (spaced_hex b).
Proof.
  induction b as [|c b IH]; [constructor|]. cbn [spaced_hex]. destruct b as [|d b]; [apply plain_upper|].
  apply plain_app; [apply plain_upper|]. constructor; [vm_compute; discriminate|exact IH].
Qed.
Lemma plain_tid t : clean_text (tid_name t).
Proof. apply plainb_spec. destruct t as [[]|]; reflexivity. Qed.
Ltac pl := repeat first
  [ assumption | apply plain_uint | apply plain_int | apply plain_X | apply plain_hex | apply plain_tid
  | (apply plainb_spec; reflexivity) | apply plain_app ].

Section Decode.
Variable de : denv.
Variable lz4_text : bytes.
Hypothesis P : print_table de.
Hypothesis L : clean_text lz4_text.

Definition shown (g : gerr) : Prop := exists t, gtext de g = OK t /\ clean_text t.
Lemma shown_plain m : clean_text m -> shown (GPlain m).
Proof. intros H. exists m. auto. Qed.
Lemma shown_chunk i sg c : shown c -> shown (GChunk i sg (Some c)).
Proof.
  intros (t & Ht & Hp). eexists. cbn [gtext]. rewrite Ht. split; [reflexivity|].
  pose proof (C84_one_line de (sig_string sg) P) as Q. destruct (i <? 0)%Z; pl; exact Q.
Qed.
Lemma shown_err e : shown (go_err lz4_text e).
Proof.
  induction e; cbn [go_err]; try (apply shown_plain; unfold count; pl; fail).
  - destruct IHe as (t & Ht & Hp). eexists. cbn [gtext]. rewrite Ht. split; [reflexivity|]. unfold count. pl.
  - destruct IHe as (t' & Ht & Hp). eexists. cbn [gtext]. rewrite Ht. split; [reflexivity|]. pl.
  - apply shown_plain. apply plain_app; [destruct kind as [|[|]]; pl|pl].
  - now apply shown_chunk.
Qed.
Lemma shown_decode_err off e : shown (go_decode_err lz4_text off e).
Proof.
  assert (D : shown (GData (Z.of_nat off) (Some (go_err lz4_text e)))).
  { destruct (shown_err e) as (t & Ht & Hp). eexists. cbn [gtext]. rewrite Ht. split; [reflexivity|].
    destruct (0 <=? Z.of_nat off)%Z; pl. }
  destruct e; try exact D. apply shown_err.
Qed.
Lemma shown_warning w : shown (go_warning lz4_text w).
Proof.
  destruct w; cbn [go_warning]; try (apply shown_plain; unfold count; pl; fail); apply shown_chunk; [apply shown_plain; pl|apply shown_err].
Qed.
(** The kinds of warnings that Decode gives hold no text of the file. *)
Definition nameless (w : cwarn) : Prop := match w with CW _ _ (CMismatch _ _ _ _) | CW _ _ (COptMismatch _ _ _ _) => False | _ => True end.
Lemma shown_cwarn w : nameless w -> shown (go_cwarn w).
Proof.
  destruct w as [i sg k]. intros H. cbn [go_cwarn]. apply shown_chunk, shown_plain. destruct k; try contradiction; unfold count; pl.
Qed.
Lemma nameless_add s w : Forall nameless (k_warns s) -> nameless w -> Forall nameless (k_warns (cwarn_add s w)).
Proof. intros H Hw. cbn. apply Forall_app. split; [exact H|now constructor]. Qed.
Lemma links_nameless ic bound lk : forall l i h rt ws, Forall nameless ws ->
  match dec_links ic bound lk i l h rt ws with OK (_, _, ws') => Forall nameless ws' | Err (_, ws') => Forall nameless ws' | _ => True end.
Proof.
  induction l as [|[c p] l IH]; intros i h rt ws H; cbn [dec_links]; [exact H|].
  destruct (out_of_bounds c bound); [exact H|]. cbv zeta. destruct (lget lk c =? 0).
  - apply IH. apply Forall_app. split; [exact H|repeat constructor].
  - destruct (p =? nilInstance)%Z; [now apply IH|]. destruct (lfind lk p) as [pp|]; [|now apply IH].
    destruct (hget h pp); [now apply IH|exact I].
Qed.
Definition fine_codec (o : outcome (err * list cwarn) dcs) : Prop :=
  match o with OK s => Forall nameless (k_warns s) | Err (_, ws) => Forall nameless ws | _ => True end.
Lemma chunk_nameless q2m f ic p s : Forall nameless (k_warns s) -> fine_codec (dec_chunk q2m f ic p s).
Proof.
  intros H. unfold dec_chunk, cfail. destruct p; try exact H.
  - destruct (out_of_bounds _ _); [exact H|]. destruct (_ && _); [exact H|].
    destruct (dec_insts _ _ _ _ _ _ _) as [[h lk]|?| |]; try exact H; try exact I.
    destruct (group_get _ _) as [[pos ?]|]; [|exact H]. destruct (pos =? ic); exact H.
  - destruct (out_of_bounds _ _); [exact H|]. destruct (group_get _ _) as [[? ids]|]; [|apply nameless_add; [exact H|exact I]].
    destruct props as [a|]; [|apply nameless_add; [exact H|exact I]]. destruct (negb _); [exact H|].
    destruct (dec_props _ _ _ _ _ _ _ _); try exact H; exact I.
  - destruct (negb _); [exact H|]. destruct (negb _); [exact H|].
    match goal with |- context[dec_links ?a ?b ?c ?d ?e ?f ?g ?h] => pose proof (links_nameless a b c e d f g h H) as K end.
    destruct (dec_links _ _ _ _ _ _ _ _) as [[[h rt] ws]|[e ws]| |]; exact K.
Qed.
Lemma list_nameless q2m f : forall cs ic s, Forall nameless (k_warns s) -> fine_codec (dec_chunk_list q2m f ic cs s).
Proof.
  induction cs as [|c cs IH]; intros ic s H; cbn [dec_chunk_list]; [exact H|].
  pose proof (chunk_nameless q2m f ic (ch_payload c) s H) as K.
  destruct (ch_payload c); try exact H;
    (destruct (dec_chunk q2m f ic _ s) as [s'|[e ws]| |]; cbn [obind]; [now apply IH|exact K|exact I|exact I]).
Qed.
Lemma decode_nameless q2m f : match codec_decode q2m f with OK (_, _, ws) => Forall nameless ws | Err (_, ws) => Forall nameless ws | _ => True end.
Proof.
  unfold codec_decode. pose proof (list_nameless q2m f (fm_chunks f) 0 k0 (Forall_nil _)) as K.
  destruct (dec_chunk_list _ _ _ _ _) as [s|[e ws]| |]; cbn [obind]; exact K.
Qed.

Lemma binary_not_xml lz spare noXML input b ws st : binary_input input -> decode lz spare noXML input <> OK (DXml b, ws, st).
Proof.
  intros B. unfold decode, decode_body. destruct (rBytes 8 input) as [[sg r]|[? ?]| |] eqn:E; try discriminate.
  destruct (negb (bytes_eqb (firstn 7 sg) robloxSig)); [discriminate|].
  assert (Em : skipn 7 sg = binaryMarker).
  { clear -E B. unfold binary_input in B. do 8 (destruct input as [|? input]; [discriminate B|]). cbn in B. injection B as ->.
    unfold rBytes in E. match type of E with context[if ?b then _ else _] => destruct b; [discriminate E|] end.
    apply OK_inj in E. apply (f_equal fst) in E. cbn [fst] in E. rewrite <- E. reflexivity. }
  rewrite Em, bytes_eqb_refl. cbn [negb].
  repeat (match goal with |- context[match ?x with _ => _ end] => destruct x; try discriminate end).
Qed.
Definition all_shown (ws : list fwarn) : Prop := forall w, In w ws -> exists g, fwarn_gerr lz4_text w = Some g /\ shown g.
Lemma all_shown_of (fws : list warning) (cws : list cwarn) : Forall nameless cws -> all_shown (map WFile fws ++ map WCodec cws).
Proof.
  intros H w Hw. apply in_app_or in Hw. destruct Hw as [Hw|Hw]; apply in_map_iff in Hw; destruct Hw as (x & <- & Hx); eexists; (split; [reflexivity|]).
  - apply shown_warning.
  - apply shown_cwarn. rewrite Forall_forall in H. now apply H.
Qed.

(** Whatever the bytes of a binary file, every error and every warning of
    Decode can be formatted, and its text is a single line without control
    characters. *)
Lemma decode_shown lz spare q2m xml noXML input : binary_input input ->
  match Decoder_Decode lz spare q2m xml noXML input with
  | OK (_, _, ws) => all_shown ws
  | Err (e, ws) => all_shown ws /\ exists e0, e = FErr e0 /\ forall off, shown (go_decode_err lz4_text off e0)
  | _ => True
  end.
Proof.
  intros B. unfold Decoder_Decode. pose proof (fun b ws st => binary_not_xml lz spare noXML input b ws st B) as N.
  destruct (decode lz spare noXML input) as [[[[b|f] ws] st]|[[e ws] st]| |]; try exact I; [now destruct (N b ws st)| |].
  - pose proof (decode_nameless q2m f) as K. destruct (codec_decode q2m f) as [[[r h] cws]|[e cws]| |]; try exact I.
    + now apply all_shown_of.
    + split; [now apply all_shown_of|]. exists e. split; [reflexivity|]. intros off. apply shown_decode_err.
  - split; [|exists e; split; [reflexivity|intros off; apply shown_decode_err]].
    rewrite <- (app_nil_r (map WFile ws)). apply (all_shown_of ws []). constructor.
Qed.
End Decode.

Theorem C105_decode_text : forall de lz4_text lz spare q2m xml noXML input,
  print_table de -> clean_text lz4_text -> binary_input input ->
  (forall e ws, Decoder_Decode lz spare q2m xml noXML input = Err (e, ws) ->
     exists e0, e = FErr e0 /\ forall off, exists t, gtext de (go_decode_err lz4_text off e0) = OK t /\ clean_text t) /\
  (forall ws, (exists e, Decoder_Decode lz spare q2m xml noXML input = Err (e, ws)) \/
              (exists r h, Decoder_Decode lz spare q2m xml noXML input = OK (r, h, ws)) ->
     forall w, In w ws -> exists g t, fwarn_gerr lz4_text w = Some g /\ gtext de g = OK t /\ clean_text t).
Proof.
  intros de lz4_text lz spare q2m xml noXML input P L B. pose proof (decode_shown de lz4_text P L lz spare q2m xml noXML input B) as K.
  split.
  - intros e ws E. rewrite E in K. destruct K as [_ K]. exact K.
  - intros ws [[e E]|(r & h & E)] w Hw; rewrite E in K; [destruct K as [K _]|]; destruct (K w Hw) as (g & Hg & t & Ht); eauto.
Qed.
Print Assumptions C105_decode_text.

(** The warnings as one error: with more than one, a heading and then exactly
    one line for each warning, in order. *)
Lemma plain_no_newline t : clean_text t -> lines t = [t].
Proof.
  intros H. unfold lines. enough (G : forall cur, lines_from cur t = [rev cur ++ t]) by apply (G []).
  induction H as [|c t Hc _ IH]; intros cur; cbn [lines_from]; [now rewrite app_nil_r|].
  destruct (Byte.eqb c x0a) eqn:E; [apply Byte.byte_dec_bl in E; subst c; vm_compute in Hc; now destruct Hc|].
  rewrite IH. cbn [rev]. now rewrite <- app_assoc.
Qed.
Theorem C105_warning_lines : forall de lz4_text lz spare q2m xml noXML input r h ws,
  print_table de -> clean_text lz4_text -> binary_input input ->
  Decoder_Decode lz spare q2m xml noXML input = OK (r, h, ws) ->
  exists texts, Forall2 (fun w t => exists g, fwarn_gerr lz4_text w = Some g /\ gtext de g = OK t) ws texts /\
  match texts with
  | [] => warn_error de lz4_text ws = None
  | [t] => exists e, warn_error de lz4_text ws = Some e /\ error_message e = OK t
  | _ => exists e m, warn_error de lz4_text ws = Some e /\ error_message e = OK m /\
           lines m = str "multiple errors:" :: map (cons x09) texts
  end.
Proof.
  intros de lz4_text lz spare q2m xml noXML input r h ws P L B D.
  destruct (C105_decode_text de lz4_text lz spare q2m xml noXML input P L B) as [_ K].
  specialize (K ws (or_intror (ex_intro _ r (ex_intro _ h D)))). clear D.
  assert (T : exists texts, Forall2 (fun w t => exists g, fwarn_gerr lz4_text w = Some g /\ gtext de g = OK t) ws texts /\ Forall clean_text texts).
  { induction ws as [|w ws IH]; [exists []; split; constructor|]. destruct IH as (ts & H1 & H2); [intros x Hx; apply K; now right|].
    destruct (K w (or_introl eq_refl)) as (g & t & Hg & Ht & Hp). exists (t :: ts). split; constructor; eauto. }
  destruct T as (texts & F & Pl). exists texts. split; [exact F|]. clear K.
  assert (M : flat_map parts (map (fun w => match fwarn_gerr lz4_text w with Some e => single de e | None => None end) ws) = map Some (map Single texts)).
  { clear Pl. induction F as [|w t ws texts (g & Hg & Ht) F IH]; [reflexivity|]. cbn [map flat_map]. rewrite Hg. unfold single at 1. rewrite Ht. cbn [parts app]. now rewrite IH. }
  unfold warn_error. set (l := map _ ws) in *. destruct (C38_union l) as (U1 & U2 & _).
  destruct texts as [|t [|t' texts]].
  - now apply U1.
  - destruct (Union l) as [e|] eqn:E; [|rewrite (proj1 U1 eq_refl) in M; discriminate M].
    destruct (U2 e eq_refl) as [-> _]. exists (Errors (flat_map parts l)). split; [reflexivity|]. rewrite M. reflexivity.
  - destruct (Union l) as [e|] eqn:E; [|rewrite (proj1 U1 eq_refl) in M; discriminate M].
    destruct (U2 e eq_refl) as [-> _]. exists (Errors (flat_map parts l)). rewrite M.
    assert (F2 : Forall2 (fun e m => error_message e = OK m) (map Single (t :: t' :: texts)) (t :: t' :: texts)).
    { clear. induction (t :: t' :: texts); constructor; [reflexivity|assumption]. }
    destruct (C38_message _ _ F2) as (m & Hm & Hl). exists m. split; [reflexivity|]. split; [exact Hm|]. rewrite Hl. f_equal. f_equal.
    clear -Pl. induction Pl as [|x l Hx _ IH]; [reflexivity|]. cbn [flat_map]. rewrite plain_no_newline by exact Hx. cbn [app]. now rewrite IH.
Qed.
Print Assumptions C105_warning_lines.

(** ** Which chunk *)
Lemma chunk_err q2m f ic p s e ws : dec_chunk q2m f ic p s = Err (e, ws) -> exists c, e = EChunk ic (psig p) c.
Proof.
  unfold dec_chunk, cfail. intros H. destruct p; try discriminate H;
    repeat (match type of H with context[match ?x with _ => _ end] => destruct x eqn:? end; try discriminate H);
    try (injection H as <- _; eauto).
Qed.
(** When the tree cannot be made from the chunks, the text of the error starts
    with the place of the chunk in the file and its signature. *)
Theorem C105_chunk : forall de lz4_text q2m f e ws t, codec_decode q2m f = Err (e, ws) -> gtext de (go_err lz4_text e) = OK t ->
  exists i c rest, nth_error (fm_chunks f) i = Some c /\
    t = str "#" ++ FormatUint (N.of_nat i) ++ str " " ++ Quote de (sig_string (psig (ch_payload c))) ++ str " chunk: " ++ rest.
Proof.
  intros de lz4_text q2m f e ws t H Ht. unfold codec_decode in H.
  assert (G : forall cs ic s e ws, dec_chunk_list q2m f ic cs s = Err (e, ws) -> exists i c x, nth_error cs i = Some c /\ e = EChunk (ic + i) (psig (ch_payload c)) x).
  { clear. induction cs as [|c cs IH]; intros ic s e ws H; cbn [dec_chunk_list] in H; [discriminate|].
    assert (K : forall p, dec_chunk q2m f ic p s = dec_chunk q2m f ic p s) by reflexivity.
    assert (St : (s' <- dec_chunk q2m f ic (ch_payload c) s ;; dec_chunk_list q2m f (S ic) cs s') = Err (e, ws)).
    { destruct (ch_payload c); try exact H; discriminate H. }
    clear H K. destruct (dec_chunk q2m f ic (ch_payload c) s) as [s'|[e' ws']| |] eqn:E; cbn [obind] in St; try discriminate St.
    - destruct (IH _ _ _ _ St) as (i & c' & x & Hn & ->). exists (S i), c', x. split; [exact Hn|]. f_equal. lia.
    - injection St as -> ->. destruct (chunk_err _ _ _ _ _ _ _ E) as (x & ->). exists 0, c, x. split; [reflexivity|]. f_equal. lia. }
  destruct (dec_chunk_list q2m f 0 (fm_chunks f) k0) as [s|[e' ws']| |] eqn:E; cbn [obind] in H; try discriminate H. injection H as -> ->.
  destruct (G _ _ _ _ _ E) as (i & c & x & Hn & ->). cbn [go_err gtext Nat.add] in Ht.
  destruct (gtext de (go_err lz4_text x)) as [u|?| |]; cbn [obind] in Ht; try discriminate Ht. apply OK_inj in Ht. subst t.
  exists i, c, u. split; [exact Hn|]. destruct (Z.ltb_spec (Z.of_nat i) 0) as [Hi|_]; [lia|].
  assert (Ei : FormatInt (Z.of_nat i) = FormatUint (N.of_nat i)).
  { unfold FormatInt. destruct (Z.ltb_spec (Z.of_nat i) 0); [lia|]. f_equal. lia. }
  rewrite Ei. now rewrite <- !app_assoc.
Qed.
(** The place can be read back: equal texts are about the same place. *)
Theorem C105_place : forall de i j sg sg' c c' t, gtext de (GChunk (Z.of_nat i) sg c) = OK t -> gtext de (GChunk (Z.of_nat j) sg' c') = OK t -> i = j.
Proof.
  intros de i j sg sg' [c|] [c'|] t Hi Hj; try discriminate. cbn [gtext] in Hi, Hj.
  destruct (gtext de c) as [u|?| |]; cbn [obind] in Hi; try discriminate Hi. destruct (gtext de c') as [u'|?| |]; cbn [obind] in Hj; try discriminate Hj.
  destruct (Z.ltb_spec (Z.of_nat i) 0); [lia|]. destruct (Z.ltb_spec (Z.of_nat j) 0); [lia|].
  apply OK_inj in Hi. apply OK_inj in Hj. rewrite <- Hj in Hi. rewrite <- !app_assoc in Hi. apply app_inv_head in Hi.
  apply cut_int in Hi; [destruct Hi as [Hi _]; lia| |]; vm_compute; intuition discriminate.
Qed.

(** A signature of four plain characters is shown as it is, in quotes. *)
Theorem C105_signature : forall de sg,
  Forall (fun c => (0x20 <= b2N c <= 0x7e)%N /\ c <> x22 /\ c <> x5c /\ de_print de (b2N c) = true) (le32 sg) ->
  Quote de (sig_string sg) = [x22] ++ le32 sg ++ [x22].
Proof.
  intros de sg F. set (de' := DEnv (de_f32 de) (de_f64 de) (de_time de) (fun _ => true) (de_print de) (de_error de)).
  assert (E : sig_string sg = le32 sg).
  { unfold sig_string. induction F as [|c l (Hc & _) F IH]; [reflexivity|]. cbn [map]. rewrite IH. f_equal. unfold latin_print. cbv zeta.
    destruct ((_ && _ || _)%bool) eqn:G; [reflexivity|lia]. }
  rewrite E. pose proof (C84_plain_text de' 0 (le32 sg)) as K.
  assert (Hl : length (le32 sg) = 4) by reflexivity.
  unfold dumpString in K. cbn [de_graphic de'] in K.
  assert (G : forallb (fun _ : bool * N * bytes => true) (runes (length (le32 sg)) (le32 sg)) = true) by (apply forallb_forall; reflexivity).
  rewrite G in K. change (Quote de' (le32 sg)) with (Quote de (le32 sg)) in K.
  assert (F' : Forall (fun c => (0x20 <= b2N c <= 0x7e)%N /\ c <> x22 /\ c <> x5c /\ de_print de' (b2N c) = true /\ de_graphic de' (b2N c) = true) (le32 sg)).
  { eapply Forall_impl; [|exact F]. intros c (H1 & H2 & H3 & H4). repeat split; try apply H1; auto. }
  specialize (K F'). apply app_inv_head in K. apply app_inv_head in K. apply app_inv_head in K. exact K.
Qed.
Print Assumptions C105_signature.

(** ** Witnesses *)
Example C105_signature_witness : Forall (fun c => (0x20 <= b2N c <= 0x7e)%N /\ c <> x22 /\ c <> x5c /\ de_print some_env (b2N c) = true) (le32 sigINST) /\
  le32 sigINST = str "INST".
Proof. split; [|reflexivity]. repeat (constructor; [repeat split; vm_compute; discriminate|]). constructor. Qed.
(** A file with bad reserved bytes and a chunk that nothing knows: decoded with
    two warnings, shown on three lines. *)
Definition noted_file : bytes :=
  firstn 24 (file_of 0 0 []) ++ [x01; x00; x00; x00; x00; x00; x00; x0a] ++ skipn 32 (file_of 0 0 [PUnknown 0x0a0a4142 [x0a]]).
Example C105_decode_witness : binary_input noted_file /\ print_table some_env /\ clean_text (str "bad block") /\
  exists r h ws, Decoder_Decode no_lz (fun _ => 0) (fun _ _ _ _ => []) (fun _ => Panic) true noted_file = OK (r, h, ws) /\ length ws = 2 /\
  warn_error some_env [] ws <> None /\
  map (fun w => option_map (gtext some_env) (fwarn_gerr [] w)) ws =
    [Some (OK (str "unexpected content for reserved bytes near 24: 01 00 00 00 00 00 00 0A"));
     Some (OK (str "#0 ""BA.."" chunk: unknown chunk signature"))].
Proof.
  split; [reflexivity|]. split; [exact some_print|]. split; [apply plainb_spec; reflexivity|].
  eexists _, _, _. split; [vm_compute; reflexivity|]. vm_compute. repeat split. discriminate.
Qed.
(** A file that is not a tree: the second chunk has an instance that the first one has. *)
Example C105_chunk_witness : exists f ws st e cws, decode no_lz (fun _ => 0) true (file_of 1 1 [PInst 0 (str "A") [0]%Z false []; PInst 0 (str "B") [0]%Z false []]) = OK (DModel f, ws, st) /\
  codec_decode (fun _ _ _ _ => []) f = Err (e, cws) /\
  gtext some_env (go_err [] e) = OK (str "#0 ""INST"" chunk: invalid class index: 0").
Proof. eexists _, _, _, _, _. split; [vm_compute; reflexivity|]. split; vm_compute; reflexivity. Qed.
Example C105_wraps_witness :
  let e := GXml (Some (GData 7 (Some (GIndex 3 (GPlain (str "EOF")))))) in
  complete e /\ wraps e (GPlain (str "EOF")) /\ gtext some_env e = OK (str "decoding XML: data error at 7: #3: EOF").
Proof. split; [repeat constructor|]. split; [repeat (eapply wraps_in; [reflexivity|]); constructor|reflexivity]. Qed.
(** The warnings of encoding hold class names and property names as they are:
    a line break in a name gives a text of two lines, the second one chosen by
    whoever chose the name. *)
Theorem C105_encode_refuted : exists class name i sg,
  gtext some_env (go_cwarn (CW i sg (CMismatch (Some tBool) (Some tInt) class name))) =
    OK (str "#1 ""INST"" chunk: mismatched types Bool and Int for property Part." ++ [x0a] ++ str "#9 ""PRNT"" chunk: no value type, chunk skipped") /\
  ~ clean_text name.
Proof.
  exists (str "Part"), (x0a :: str "#9 ""PRNT"" chunk: no value type"), 1, sigINST. split; [vm_compute; reflexivity|].
  intros H. inversion H as [|? ? K]. vm_compute in K. now destruct K.
Qed.
(** Names without control characters give plain warnings. *)
Theorem C105_encode_text : forall de w, print_table de ->
  match w with CW _ _ (CMismatch _ _ class name) | CW _ _ (COptMismatch _ _ class name) => clean_text class /\ clean_text name | _ => True end ->
  exists t, gtext de (go_cwarn w) = OK t /\ clean_text t.
Proof.
  intros de [i sg k] P H. cbn [go_cwarn]. apply shown_chunk; [exact P|]. apply shown_plain.
  destruct k; unfold count; try (destruct H as [H1 H2]); pl.
Qed.
Print Assumptions C105_encode_text.
Print Assumptions C105_chunk.
