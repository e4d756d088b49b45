(** PropDumpLayout.v - C93, C94: the layout of a dump; which files can be dumped,
    with the part of errored chunks that was read. *)
From Verif Require Import Base RbxlValues RbxlArrays RbxlArraysProofs RbxlModel RbxlModelProofs RbxlFile RbxlFileProofs RbxValues Tree
  RbxlCodec XmlText Json RbxlDump SpecValues SpecArrays SpecModel SpecFile RbxlCodecTree SpecDump DumpProofs DumpQuote DumpValues DumpFile
  PropDecode PropDump RbxlPartial SpecDumpLayout.

(** ** Signatures *)
Definition hex_agrees (c : byte) : bool := bytes_eqb (upper_byte c) (two_HEX c) && Byte.eqb (if latin_print c then c else x2e) (sig_char c).
Lemma hex_all : forall c, hex_agrees c = true.
Proof. intros c. destruct c; vm_compute; reflexivity. Qed.
Lemma upper_two : forall c, upper_byte c = two_HEX c.
Proof. intros c. pose proof (hex_all c) as H. unfold hex_agrees in H. apply andb_prop in H as [H _]. now apply bytes_eqb_eq in H. Qed.
Lemma char_agrees : forall c, (if latin_print c then c else x2e) = sig_char c.
Proof. intros c. pose proof (hex_all c) as H. unfold hex_agrees in H. apply andb_prop in H as [_ H]. now apply Byte.byte_dec_bl in H. Qed.
Lemma sig_four : forall s a b c d, le32 s = [a; b; c; d] -> dumpSig s = sig_text a b c d.
Proof.
  intros s a b c d E. unfold dumpSig. rewrite E. unfold sig_text. cbn [map spaced_hex]. rewrite !char_agrees, !upper_two. rewrite <- !app_assoc. reflexivity.
Qed.
Lemma le32_four : forall s, le32 s = [N2b (s mod 256); N2b (s / 256 mod 256); N2b (s / 65536 mod 256); N2b (s / 16777216 mod 256)]%N.
Proof.
  intros s. unfold le32, le_bytes. assert (G : forall x, N2b x = N2b (x mod 256)) by (intros x; apply b2N_inj; rewrite !b2N_N2b, N.mod_mod; [reflexivity|discriminate]).
  rewrite !N.div_div by discriminate. change (256 * 256)%N with 65536%N. change (256 * 65536)%N with 16777216%N || change (65536 * 256)%N with 16777216%N.
  rewrite <- !G. reflexivity.
Qed.
Lemma sig_ok : forall p, dumpSig (psig p) = sig_line p.
Proof.
  intros p. unfold sig_line. destruct p; cbn [psig sig_of]; apply sig_four; try (vm_compute; reflexivity); apply le32_four.
Qed.

(** ** Chunks *)
Lemma dec_uint : forall n, FormatUint (N.of_nat n) = dec n.
Proof. intros n. unfold dec. rewrite <- nat_N_Z. symmetry. apply FormatInt_nat. Qed.
Lemma uint_int : forall n, FormatUint n = FormatInt (Z.of_N n).
Proof. intros n. symmetry. apply FormatInt_nat. Qed.
Lemma render_words k s : render k (words s) = nl k ++ s.
Proof. reflexivity. Qed.
Lemma render_line k t : render k (Line t) = nl k ++ t k.
Proof. reflexivity. Qed.
Lemma render_group k l : render k (Group l) = flat_map (render (S k)) l.
Proof. reflexivity. Qed.
Lemma render_block k head body : flat_map (render k) (block head body) = nl k ++ head ++ str "{" ++ flat_map (render (S k)) body ++ nl k ++ str "}".
Proof. unfold block. cbn [flat_map]. rewrite !render_words, render_group, app_nil_r, <- !app_assoc. reflexivity. Qed.
Lemma fm_map {A B C} (f : B -> list C) (g : A -> B) l : flat_map f (map g l) = flat_map (fun a => f (g a)) l.
Proof. induction l as [|a l IH]; [reflexivity|]. cbn [map flat_map]. now rewrite IH. Qed.
Lemma fm_fm {A B C} (f : B -> list C) (g : A -> list B) l : flat_map f (flat_map g l) = flat_map (fun a => flat_map f (g a)) l.
Proof. induction l as [|a l IH]; [reflexivity|]. cbn [flat_map]. now rewrite flat_map_app, IH. Qed.
Lemma fm_ext {A B} (f g : A -> list B) l : (forall a, f a = g a) -> flat_map f l = flat_map g l.
Proof. intros H. induction l as [|a l IH]; [reflexivity|]. cbn [flat_map]. now rewrite H, IH. Qed.
Lemma numbered_enum {A} (f : A -> bytes) k (l : list A) :
  numbered f k 0 l = flat_map (fun ia => nl k ++ dec (fst ia) ++ str ": " ++ f (snd ia)) (enumerate l).
Proof.
  unfold enumerate. generalize 0. induction l as [|a l IH]; intros i; [reflexivity|]. cbn [numbered length seq combine flat_map fst snd].
  rewrite IH, dec_uint, <- !app_assoc. reflexivity.
Qed.
(** ** Arrays as far as they were read *)
Inductive sized (n : nat) : array -> Prop :=
| sized_plain t vs : length vs = n -> sized n (ARR t vs)
| sized_none ps : length ps = n -> sized n (AOPT None ps)
| sized_some v ps : sized n v -> length ps = n -> sized n (AOPT (Some v) ps).
Lemma wf_sized a : wf_array a -> sized (arr_len a) a.
Proof. induction 1; cbn [arr_len]; constructor; auto. Qed.
Lemma sized_len n a : sized n a -> arr_len a = n \/ arr_len a = 0.
Proof. induction 1; cbn [arr_len]; auto. Qed.
Lemma sized_get n a : sized n a -> forall i, i < arr_len a ->
  (exists x, arr_get a i = OK (Some x) /\ ~ missing a i) \/ (arr_get a i = OK None /\ missing a i).
Proof.
  induction 1 as [t vs L|ps L|v ps Hv IH L]; intros i Hi; cbn [arr_get arr_len missing] in *; [|lia|].
  - destruct (nth_error vs i) as [x|] eqn:E; [left; exists x; auto|apply nth_error_None in E; lia].
  - destruct (sized_len n v Hv) as [E|E]; [|lia]. destruct (nth_error ps i) as [[]|] eqn:Ep; [|auto|apply nth_error_None in Ep; lia].
    destruct (IH i Hi) as [(x & E1 & E2)|[E1 E2]]; [left; exists x; split; [exact E1|]|auto]. intros [Q|Q]; [discriminate Q|contradiction].
Qed.
Lemma dump_sized de k n a : sized n a ->
  (exists b, dump_array de k a = OK b /\ ~ undumpable a) \/ (dump_array de k a = Panic /\ undumpable a).
Proof.
  intros [t vs L|ps L|v ps Hv L].
  - left. rewrite dump_array_plain. eexists. split; [reflexivity|]. intros (? & ? & ? & E & _). discriminate E.
  - left. eexists. split; [reflexivity|]. intros (? & ? & ? & E & _). discriminate E.
  - unfold dump_array, dump_optional.
    match goal with |- context [write_loop ?n 0 ?f] => set (loop := f) end.
    assert (Hl : forall i, i < arr_len v -> (exists b, loop i = OK b /\ ~ missing v i) \/ (loop i = Panic /\ missing v i)).
    { intros i Hi. unfold loop. destruct (sized_len n v Hv) as [E|E]; [|lia]. destruct (nth_error ps i) as [p|] eqn:Ep; [|apply nth_error_None in Ep; lia].
      destruct (sized_get n v Hv i Hi) as [(x & E1 & E2)|[E1 E2]]; rewrite E1; cbn [obind dump_got]; [left; eexists; split; [reflexivity|exact E2]|now right]. }
    destruct (bounded_dec (missing v) (arr_len v)) as [(i & Hi & Hm)|Hno].
    + intros i Hi. destruct (Hl i Hi) as [(? & _ & ?)|[_ ?]]; auto.
    + right. rewrite write_loop_panic; [split; [reflexivity|now exists v, ps, i]| |].
      * intros j Hj. destruct (Hl j) as [(b & E & _)|[E _]]; [lia|eauto|auto].
      * exists i. split; [lia|]. destruct (Hl i Hi) as [(b & _ & E)|[E _]]; [contradiction|exact E].
    + left. destruct (write_loop_ok loop (arr_len v) 0) as [b ->].
      * intros j Hj. destruct (Hl j) as [(b & E & _)|[_ E]]; [lia|eauto|]. exfalso. apply (Hno j); [lia|exact E].
      * eexists. split; [reflexivity|]. intros (v' & ps' & i & E & Hi & Hm). injection E as <- <-. now apply (Hno i).
Qed.
Lemma type_ok t : type_text t = str "(type:" ++ FormatUint (b2N (tid_byte t)) ++ str ") " ++ tid_string t.
Proof. destruct t; vm_compute; reflexivity. Qed.
Lemma column_ok de k n a b : sized n a -> ~ nested a -> dump_array de k a = OK b -> flat_map (render (S k)) (column_nodes de a) = b.
Proof.
  intros Hw Hn E. destruct Hw as [t vs _|ps _|v ps Hv Hl].
  - rewrite dump_array_plain in E. apply OK_eq in E. subst b. cbn [column_nodes]. rewrite render_block, fm_map. rewrite !type_ok.
    rewrite numbered_enum, dec_uint, <- !app_assoc. replace (k + 2) with (S (S k)) by lia. cbn [app]. repeat f_equal. 
  - unfold dump_array, dump_optional in E. cbn [obind arr_type arr_len] in E. apply OK_eq in E. subst b. cbn [column_nodes flat_map]. rewrite render_words, app_nil_r. rewrite !type_ok.
    rewrite dec_uint, <- !app_assoc. reflexivity.
  - destruct v as [t vs|v qs]; [|exfalso; apply Hn; eexists _, _, _; reflexivity]. inversion Hv as [? ? L| |]; subst.
    rewrite dump_array_opt in E by congruence. apply OK_eq in E. subst b. cbn [column_nodes flat_map]. rewrite render_words, !render_group. cbn [flat_map].
    rewrite render_words, render_group, fm_map, !app_nil_r. rewrite !type_ok.
    rewrite numbered_enum, dec_uint, <- !app_assoc. replace (S k + 2) with (S (S (S k))) by lia.
    rewrite (fm_ext _ (fun ia => nl (S (S (S k))) ++ dec (fst ia) ++ str ": " ++ opt_text de (S (S (S k))) (snd ia))); [reflexivity|].
    intros [i [p v]]. rewrite render_line. unfold opt_text. cbn [fst snd]. now destruct p.
Qed.
(** Arrays have one size and the signature is known. *)
Definition fits (p : payload) : Prop :=
  match p with
  | PProp _ _ (Some a) => exists n, sized n a
  | PUnknown _ _ | PErrored _ _ _ _ => False
  | _ => True
  end.
Definition not_nested (p : payload) : Prop := match p with PProp _ _ (Some a) => ~ nested a | _ => True end.
Definition cannot (p : payload) : Prop := exists id name a, p = PProp id name (Some a) /\ undumpable a.
Definition same_classes (cs : classes) (seen : list payload) : Prop := forall id, class_get cs id = last_class seen id.
Lemma same_add cs seen p : same_classes cs seen -> same_classes (class_add cs p) (seen ++ [p]).
Proof.
  intros H id. assert (G : last_class (seen ++ [p]) id = match last_class [p] id with Some c => Some c | None => last_class seen id end).
  { clear H. remember (last_class [p] id) as o eqn:Eo. induction seen as [|q seen IH]; [cbn [app]; rewrite <- Eo; now destruct o|].
    cbn [app last_class]. rewrite IH. now destruct o. }
  rewrite G, <- H. destruct p; try reflexivity. cbn [class_add class_get last_class]. now match goal with |- context [(?x =? id)%Z] => destruct (x =? id)%Z end.
Qed.
Lemma payload_ok de k cs seen p b : same_classes cs seen -> (fits p /\ not_nested p) \/ (k = 1 /\ exists s c, p = PUnknown s c) ->
  dump_payload de k cs p = OK b -> flat_map (render (S k)) (payload_nodes de seen p) = b.
Proof.
  intros Hc Ho E. destruct p as [vs|v vs|id name ids svc gs|id name props|v cs' ps|c|sg c|sg off e c]; cbn [dump_payload] in E; cbn [payload_nodes].
  - apply OK_eq in E. subst b. cbn [flat_map]. rewrite render_words, dec_uint, fm_fm, <- !app_assoc. do 3 f_equal.
    apply fm_ext. intros kv. rewrite render_block. cbn [flat_map]. rewrite !render_line, app_nil_r, <- !app_assoc. replace (k + 2) with (S (S k)) by lia. reflexivity.
  - apply OK_eq in E. subst b. cbn [flat_map]. rewrite render_words, render_block, fm_fm, dec_uint, uint_int, numbered_enum, <- !app_assoc. replace (k + 2) with (S (S k)) by lia.
    rewrite (fm_ext (fun a => flat_map (render (S (S k))) (block (dec (fst a) ++ str ": ") _))
      (fun ia => nl (S (S k)) ++ dec (fst ia) ++ str ": " ++ (str "{" ++
            nl (k + 3) ++ str "Hash: " ++ dumpBytes (k + 3) (fst (snd ia)) ++
            nl (k + 3) ++ str "Value: " ++ dumpBytes (k + 3) (snd (snd ia)) ++
            nl (S (S k)) ++ str "}"))); [reflexivity|].
    intros [i hv]. rewrite render_block. cbn [flat_map fst snd]. rewrite !render_line, app_nil_r, <- !app_assoc.
    replace (k + 3) with (S (S (S k))) by lia. reflexivity.
  - apply OK_eq in E. subst b. cbn [flat_map]. rewrite render_words, render_line, render_block, dec_uint, <- !app_assoc. replace (k + 2) with (S (S k)) by lia.
    rewrite fm_map.
    assert (Hb : flat_map (fun a => render (S (S k)) (words (dec (fst a) ++ str ": " ++ FormatInt (snd a) ++
           if svc
           then str " (" ++ match nth_error gs (fst a) with Some g => FormatInt (Z.of_N (b2N g)) | None => str "invalid" end ++ str ")"
           else []))) (enumerate ids) =
      flat_map (fun ii =>
            let ' (i, id) := ii in
            nl (S (S k)) ++ FormatUint (N.of_nat i) ++ str ": " ++ FormatInt id ++
            (if svc then
               match nth_error gs i with
               | None => str " (invalid)"
               | Some g => str " (" ++ FormatUint (b2N g) ++ str ")"
               end
             else [])) (combine (seq 0 (length ids)) ids)).
    { apply fm_ext. intros [i z]. cbn [fst snd]. rewrite render_words, dec_uint. destruct svc; [|reflexivity]. destruct (nth_error gs i) as [g|]; [|reflexivity]. now rewrite uint_int. }
    rewrite Hb. destruct svc; reflexivity.
  - destruct Ho as [Ho|[_ (s & x & Q)]]; [|discriminate Q]. destruct Ho as [Ho Hnn].
    assert (Hb : forall c, match props with None => OK [] | Some a => dump_array de k a end = OK c ->
      flat_map (render (S k)) match props with Some a => column_nodes de a | None => [] end = c).
    { intros c Q. destruct props as [a|]; [destruct Ho as [n Ho]; now apply (column_ok de k n)|]. apply OK_eq in Q. now subst. }
    destruct (match props with None => OK [] | Some a => dump_array de k a end) as [c| | |]; cbn [obind] in E; try discriminate E.
    apply OK_eq in E. subst b. cbn [flat_map]. rewrite (Hb c eq_refl), !render_line, <- (Hc id), <- !app_assoc.
    destruct (class_get cs id) as [[n cname]|]; [|reflexivity]. rewrite dec_uint. reflexivity.
  - apply OK_eq in E. subst b. cbn [flat_map].
    rewrite !render_words, render_group, app_nil_r, fm_map, uint_int, <- !app_assoc. unfold dump_links.
    replace (k + 2) with (S (S k)) by lia. reflexivity.
  - apply OK_eq in E. subst b. cbn [flat_map]. now rewrite render_line, app_nil_r.
  - destruct Ho as [[[] _]|[-> _]]. apply OK_eq in E. subst b. cbn [flat_map]. now rewrite render_line, render_words, app_nil_r, <- !app_assoc.
  - destruct Ho as [[[] _]|[_ (s & x & Q)]]. discriminate Q.
Qed.
Definition readable_shape (p : payload) : Prop := fits p \/ exists s c, p = PUnknown s c.
Lemma shape_reads p : read_shape p -> is_errp p = false -> readable_shape p.
Proof.
  intros H He. destruct p as [vs|v vs|id name ids svc gs|id name [a|]|v cs' ps|c|sg c|sg off e c]; try discriminate He; try (left; exact I).
  - left. exists (arr_len a). now apply wf_sized.
  - right. eauto.
Qed.
Lemma dump_payload_split de k cs p : readable_shape p ->
  (exists b, dump_payload de k cs p = OK b /\ ~ cannot p) \/ (dump_payload de k cs p = Panic /\ cannot p).
Proof.
  intros Hp. destruct p as [vs|v vs|id name ids svc gs|id name props|v cs' ps|c|sg c|sg off e c]; 
    try (left; eexists; split; [reflexivity|]; intros (? & ? & ? & E & _); discriminate E).
  cbn [dump_payload]. destruct props as [a|]; cbn [obind]; [|left; eexists; split; [reflexivity|]; intros (? & ? & ? & E & _); discriminate E].
  destruct Hp as [[n Hp]|(s & c & E)]; [|discriminate E]. destruct (dump_sized de k n a Hp) as [(b & -> & Hu)|[-> Hu]]; cbn [obind].
  - left. eexists. split; [reflexivity|]. intros (id' & name' & a' & E & Hu'). injection E as _ _ <-. contradiction.
  - right. split; [reflexivity|]. now exists id, name, a.
Qed.
Lemma dump_chunk_split de i inner cs c : fits inner -> read_shape (ch_payload c) -> let q := as_read (fun _ => inner) (i, c) in
  (exists b, dump_chunk de i inner cs c = OK (b, class_add cs q) /\ ~ cannot q) \/ (dump_chunk de i inner cs c = Panic /\ cannot q).
Proof.
  intros Hi Hs. cbv zeta. unfold dump_chunk, as_read. cbn [fst snd]. destruct (is_errp (ch_payload c)) eqn:Ee.
  - destruct (ch_payload c); try discriminate Ee.
    destruct (dump_payload_split de 3 (class_add cs inner) inner (or_introl Hi)) as [(b & -> & Hu)|[-> Hu]]; cbn [obind]; [left|right]; eauto.
  - pose proof (dump_payload_split de 1 (class_add cs (ch_payload c)) (ch_payload c) (shape_reads _ Hs Ee)) as Hd.
    destruct (ch_payload c); try discriminate Ee; (destruct Hd as [(b & -> & Hu)|[-> Hu]]; cbn [obind]; [left; eexists; split; [reflexivity|exact Hu]|right; auto]).
Qed.
Lemma dump_chunks_split de inner : (forall i, fits (inner i)) -> forall l i cs, Forall (fun c => read_shape (ch_payload c)) l ->
  let all := combine (seq i (length l)) l in
  (exists b, dump_chunks de inner i cs l = OK b /\ forall ic, In ic all -> ~ cannot (as_read inner ic)) \/
  (dump_chunks de inner i cs l = Panic /\ exists ic, In ic all /\ cannot (as_read inner ic)).
Proof.
  intros Hi. cbv zeta. induction l as [|c l IH]; intros i cs Hf; cbn [dump_chunks length seq combine]; [left; eexists; split; [reflexivity|intros ic []]|].
  inversion Hf as [|? ? Hc Hl]; subst. destruct (dump_chunk_split de i (inner i) cs c (Hi i) Hc) as [(b & -> & Hu)|[-> Hu]]; cbn [obind].
  - change (as_read (fun _ => inner i) (i, c)) with (as_read inner (i, c)) in Hu.
    destruct (IH (S i) (class_add cs (as_read (fun _ => inner i) (i, c))) Hl) as [(r & -> & Hr)|(-> & ic & Hic & Hr)]; cbn [obind].
    + left. eexists. split; [reflexivity|]. intros ic [<-|Hin]; auto.
    + right. split; [reflexivity|]. exists ic. split; [now right|exact Hr].
  - right. split; [reflexivity|]. exists (i, c). split; [now left|exact Hu].
Qed.
Lemma chunk_ok de i inner cs seen c b cs' : same_classes cs seen -> read_shape (ch_payload c) -> fits inner ->
  not_nested (as_read (fun _ => inner) (i, c)) ->
  dump_chunk de i inner cs c = OK (b, cs') ->
  let now_seen := seen ++ [as_read (fun _ => inner) (i, c)] in
  same_classes cs' now_seen /\ flat_map (render 1) (chunk_nodes de i now_seen inner c) = b.
Proof.
  intros Hc Hs Hi Hn E. cbv zeta. unfold dump_chunk in E. unfold chunk_nodes. rewrite render_block.
  destruct (is_errp (ch_payload c)) eqn:Ee.
  - destruct (ch_payload c) as [| | | | | | |sg off e content] eqn:Ep; try discriminate Ee.
    pose proof (same_add cs seen inner Hc) as Hc'. unfold as_read in *. cbn [snd fst] in *. rewrite Ep in *.
    destruct (dump_payload de 3 (class_add cs inner) inner) as [t| | |] eqn:Ed; cbn [obind] in E; try discriminate E.
    pose proof (f_equal (fun o => match o with OK x => x | _ => ([], []) end) E) as Ex. cbn beta iota in Ex. clear E. apply pair_equal_spec in Ex as [<- <-].
    split; [exact Hc'|]. cbn [flat_map]. rewrite !render_words, !render_group, render_block, render_line, app_nil_r.
    rewrite (payload_ok de 3 _ _ _ _ Hc' (or_introl (conj Hi Hn)) Ed). unfold dump_head. cbn [psig].
    rewrite (sig_ok (PErrored sg off e content) : dumpSig sg = _), !dec_uint, <- !app_assoc. unfold state_text. destruct (ch_compressed c); reflexivity.
  - assert (Ex : exists t, dump_payload de 1 (class_add cs (ch_payload c)) (ch_payload c) = OK t /\
      dump_head 1 (Some i) (psig (ch_payload c)) (ch_compressed c) ++ t ++ nl 1 ++ str "}" = b /\ class_add cs (ch_payload c) = cs').
    { destruct (ch_payload c); try discriminate Ee;
      (destruct (dump_payload de 1 _ _) as [t| | |]; cbn [obind] in E; [|discriminate E..]);
      exists t; (split; [reflexivity|]); apply OK_eq in E; now apply pair_equal_spec in E. }
    destruct Ex as (t & Et & <- & <-).
    pose proof (same_add cs seen (ch_payload c) Hc) as Hc'.
    assert (Ha : as_read (fun _ => inner) (i, c) = ch_payload c) by (unfold as_read; cbn [snd fst]; now destruct (ch_payload c)).
    rewrite Ha. split; [exact Hc'|].
    assert (Hb : flat_map (render 2) (payload_nodes de (seen ++ [ch_payload c]) (ch_payload c)) = t).
    { apply (payload_ok de 1 _ _ _ _ Hc'); [|exact Et]. rewrite Ha in Hn. destruct (shape_reads _ Hs Ee) as [Hf|Hf]; [left|right]; auto. }
    transitivity (nl 1 ++ (str "#" ++ dec i ++ str ": " ++ sig_line (ch_payload c) ++ state_text (ch_compressed c)) ++ str "{" ++
      flat_map (render 2) (payload_nodes de (seen ++ [ch_payload c]) (ch_payload c)) ++ nl 1 ++ str "}").
    { destruct (ch_payload c); try discriminate Ee; reflexivity. }
    rewrite Hb. unfold dump_head. rewrite sig_ok, dec_uint, <- !app_assoc. unfold state_text. destruct (ch_compressed c); reflexivity.
Qed.
Lemma chunks_ok de inner : (forall i, fits (inner i)) -> forall l pre cs b,
  same_classes cs (map (as_read inner) (enumerate pre)) -> Forall (fun c => read_shape (ch_payload c)) l ->
  (forall ic, In ic (combine (seq (length pre) (length l)) l) -> not_nested (as_read inner ic)) ->
  dump_chunks de inner (length pre) cs l = OK b ->
  flat_map (render 1) (flat_map (fun ic => chunk_nodes de (fst ic) (map (as_read inner) (firstn (S (fst ic)) (enumerate (pre ++ l)))) (inner (fst ic)) (snd ic))
    (combine (seq (length pre) (length l)) l)) = b.
Proof.
  intros Hi. induction l as [|c l IH]; intros pre cs b Hc Hf Hn E; cbn [dump_chunks] in E; [apply OK_eq in E; now subst|].
  inversion Hf as [|? ? Hc1 Hf1]; subst.
  destruct (dump_chunk de (length pre) (inner (length pre)) cs c) as [[b1 cs1]| | |] eqn:E1; cbn [obind] in E; try discriminate E.
  destruct (dump_chunks de inner (S (length pre)) cs1 l) as [b2| | |] eqn:E2; cbn [obind] in E; try discriminate E. apply OK_eq in E. subst b.
  destruct (chunk_ok de (length pre) (inner (length pre)) cs _ c b1 cs1 Hc Hc1 (Hi _) (Hn (length pre, c) (or_introl eq_refl)) E1) as [Hc2 Hb].
  assert (En : forall (x y : list chunk), enumerate (x ++ y) = enumerate x ++ combine (seq (length x) (length y)) y).
  { intros x y. unfold enumerate. rewrite app_length, seq_app. 
    assert (G : forall (n m : list nat) (x : list chunk), length n = length x -> combine (n ++ m) (x ++ y) = combine n x ++ combine m y).
    { clear. induction n as [|a n IHn]; intros m [|z x] L; try discriminate L; [reflexivity|]. cbn [app combine]. rewrite IHn by (now injection L). reflexivity. }
    apply G. apply seq_length. }
  assert (Hs : map (as_read inner) (firstn (S (length pre)) (enumerate (pre ++ c :: l))) =
    map (as_read inner) (enumerate pre) ++ [as_read (fun _ => inner (length pre)) (length pre, c)]).
  { rewrite En. cbn [length seq combine]. rewrite firstn_app.
    assert (Ll : length (enumerate pre) = length pre) by (unfold enumerate; rewrite combine_length, seq_length; lia).
    rewrite Ll, firstn_all2 by lia. replace (S (length pre) - length pre) with 1 by lia. cbn [firstn]. rewrite map_app. reflexivity. }
  cbn [length seq combine flat_map fst snd]. rewrite flat_map_app, Hs, Hb. f_equal.
  specialize (IH (pre ++ [c]) cs1 b2). rewrite app_length in IH. cbn [length] in IH. rewrite Nat.add_1_r, <- app_assoc in IH. cbn [app] in IH. apply IH; [|exact Hf1| |exact E2].
  - rewrite En, map_app. exact Hc2.
  - intros ic Hin. apply Hn. right. exact Hin.
Qed.


(** ** The part that was read *)
Lemma partial_elems_len t : forall n b, length (partial_elems t n b) = n.
Proof.
  induction n as [|n IH]; intros b; [reflexivity|]. cbn [partial_elems]. destruct (from_bytes t b) as [[v nn]|?| |]; cbn [length]; [now rewrite IH|..]; apply repeat_length.
Qed.
Lemma partial_refs_len : forall n i prev b, length (partial_refs n i prev b) = n.
Proof.
  induction n as [|n IH]; intros i prev b; [reflexivity|]. cbn [partial_refs]. destruct (from_bytes tReference b) as [[[] nn]|?| |]; cbn [length]; try apply repeat_length; now rewrite IH.
Qed.
Lemma partial_heads_len t : forall n b, length (partial_heads t n b) = n.
Proof.
  induction n as [|n IH]; intros b; [reflexivity|]. cbn [partial_heads]. destruct (heads_from t 1 0 b) as [[[[|v [|]] r] nn]|?| |]; cbn [length]; try apply repeat_length; now rewrite IH.
Qed.
Lemma partial_pos_len : forall vs b, length (partial_pos vs b) = length vs.
Proof.
  induction vs as [|v vs IH]; intros b; [reflexivity|]. cbn [partial_pos]. destruct (fb_vec3 b) as [[p nn]|?| |]; cbn [length]; try reflexivity; now rewrite IH.
Qed.
Lemma partial_cframes_len spare t n b : is_cf t = true -> length (partial_cframes spare t n b) = n.
Proof.
  intros Ht. unfold partial_cframes. destruct (heads_from_total t n Ht 0 b) as [[e ->]|(vs & r & m & -> & L & _)]; [apply partial_heads_len|].
  destruct (deinterleave _ _); [rewrite partial_pos_len|..]; exact L.
Qed.
Lemma partial_arr1_len spare t n b : length (partial_arr1 spare t n b) = n.
Proof.
  unfold partial_arr1. destruct (if interleaved t then _ else _) as [b'|?| |]; try apply repeat_length.
  destruct t; first [apply partial_elems_len|apply partial_refs_len|now apply partial_cframes_len].
Qed.
Lemma partial_array_sized spare n : forall b a, partial_array spare b n = Some a -> sized n a.
Proof.
  induction b as [|tb rest IH]; intros a E; [discriminate|]. cbn [partial_array] in E.
  destruct (tid_of_byte tb) as [t|]; [|discriminate].
  assert (Hplain : forall t', Some (ARR t' (partial_arr1 spare t' n rest)) = Some a -> sized n a).
  { intros t' Q. injection Q as <-. constructor. apply partial_arr1_len. }
  destruct t; try (now apply Hplain in E). clear Hplain.
  destruct (typeArrayFromBytes_total spare n rest) as [[e Q]|[(v & m & Q & Hw & L & _)|[Q _]]]; rewrite Q in E; injection E as <-.
  2:{ constructor; [rewrite <- L; now apply wf_sized|]. destruct (skipn m _) as [|pb r]; [apply repeat_length|].
      destruct (tid_of_byte pb) as [[]|]; try apply repeat_length. rewrite map_length. apply partial_arr1_len. }
  all: destruct (partial_array spare rest n) as [a'|]; constructor; auto; apply repeat_length.
Qed.
Lemma partial_payload_fits spare g sg b : fits (partial_payload spare g sg b).
Proof.
  unfold partial_payload. repeat match goal with |- context [(sg =? ?s)%N] => destruct (sg =? s)%N end; try exact I.
  - unfold partial_meta. destruct (rNum 4 b) as [[? ?]|?| |]; exact I.
  - unfold partial_sstr. destruct (rNum 4 b) as [[? r]|?| |]; try exact I. destruct (rNum 4 r) as [[? ?]|?| |]; exact I.
  - unfold partial_inst. repeat match goal with |- context [match ?x with OK _ => _ | _ => _ end] => destruct x as [[? ?]|?| |]; try exact I end.
  - unfold partial_prop. destruct (rI32 b) as [[id r]|?| |]; try exact I. destruct (g id) as [n|]; [|exact I].
    destruct (readString r) as [[name raw]|?| |]; try exact I. cbn [fits]. destruct (partial_array _ raw n) as [a|] eqn:E; [|exact I]. exists n. now apply partial_array_sized in E.
  - unfold partial_prnt. repeat match goal with |- context [match ?x with OK _ => _ | _ => _ end] => destruct x as [[? ?]|?| |]; try exact I end.
Qed.
Lemma partial_of_fits spare f i : fits (partial_of spare f i).
Proof. unfold partial_of. destruct (nth_error _ _) as [[z []]|]; try exact I. apply partial_payload_fits. Qed.

(** ** C94 *)
Lemma dump_split de lz spare noXML input f ws st : decode lz spare noXML input = OK (DModel f, ws, st) ->
  (exists b, dump_chunks de (partial_of spare f) 0 [] (fm_chunks f) = OK b /\ (exists t, Dump de lz spare noXML input = OK (ws, t)) /\ forall a, column_read (partial_of spare f) f a -> ~ undumpable a) \/
  (Dump de lz spare noXML input = Panic /\ exists a, column_read (partial_of spare f) f a /\ undumpable a).
Proof.
  intros Hd. unfold Dump, Decoder_Dump, dump_model. rewrite Hd.
  destruct (dump_chunks_split de (partial_of spare f) (partial_of_fits spare f) (fm_chunks f) 0 [] (decode_shapes _ _ _ _ _ _ _ Hd)) as [(b & -> & Hu)|(-> & [ic (Hic & id & name & a & Ea & Hu)])]; cbn [obind].
  - left. exists b. split; [reflexivity|]. split; [eexists; reflexivity|]. intros a (ic & id & name & Hic & Ea) Hu'. apply (Hu ic Hic). now exists id, name, a.
  - right. split; [reflexivity|]. exists a. split; [|exact Hu]. now exists ic, id, name.
Qed.
(** Dumping a file that can be read panics exactly when a column, as far as it
    was read, is an optional of an optional with a missing inner cell; otherwise
    it gives a text, and the warnings of decoding. *)
Theorem C94_panics : forall de lz spare noXML input f ws st,
  decode lz spare noXML input = OK (DModel f, ws, st) ->
  (Dump de lz spare noXML input = Panic <-> exists a, column_read (partial_of spare f) f a /\ undumpable a).
Proof.
  intros de lz spare noXML input f ws st Hd. destruct (dump_split de _ _ _ _ _ _ _ Hd) as [(b & _ & [t ->] & Hu)|[-> Hu]].
  - split; [discriminate|]. intros (a & Ha & K). now apply Hu in Ha.
  - split; auto.
Qed.
Theorem C94_text : forall de lz spare noXML input f ws st,
  decode lz spare noXML input = OK (DModel f, ws, st) -> (forall a, column_read (partial_of spare f) f a -> ~ undumpable a) ->
  exists text, Dump de lz spare noXML input = OK (ws, text).
Proof.
  intros de lz spare noXML input f ws st Hd Hn. destruct (dump_split de _ _ _ _ _ _ _ Hd) as [(b & _ & Ht & _)|[_ (a & Ha & Hu)]]; [exact Ht|].
  now apply Hn in Ha.
Qed.

(** ** C93 *)
(** The dump of a file that can be read is, line by line, the listing of the
    file: the counts of the header, and each chunk with its number, signature,
    state and contents, columns with the class that their id stands for. *)
Theorem C93_layout : forall de lz spare noXML input f ws st,
  decode lz spare noXML input = OK (DModel f, ws, st) -> (forall a, column_read (partial_of spare f) f a -> ~ nested a) ->
  Dump de lz spare noXML input = OK (ws, file_text de (partial_of spare f) f).
Proof.
  intros de lz spare noXML input f ws st Hd Hn. set (inner := partial_of spare f) in *.
  destruct (dump_split de _ _ _ _ _ _ _ Hd) as [(b & Eb & _)|[_ (a & Ha & v & ps & i & -> & _ & Hm)]].
  2:{ exfalso. apply (Hn _ Ha). destruct v as [|a' ps']; [destruct Hm|]. now exists a', ps, ps'. }
  unfold Dump, Decoder_Dump, dump_model. rewrite Hd. fold inner in Eb |- *. rewrite Eb. cbn [obind]. do 2 f_equal.
  assert (Hnn : forall ic, In ic (combine (seq (length (@nil chunk)) (length (fm_chunks f))) (fm_chunks f)) -> not_nested (as_read inner ic)).
  { intros ic Hic. unfold not_nested. destruct (as_read inner ic) as [| | |id name [a|]| | | |] eqn:Ep; try exact I. apply Hn. now exists ic, id, name. }
  pose proof (chunks_ok de inner (partial_of_fits spare f) (fm_chunks f) [] [] b (fun _ => eq_refl) (decode_shapes _ _ _ _ _ _ _ Hd) Hnn Eb) as Hb.
  cbn [app length] in Hb. fold (enumerate (fm_chunks f)) in Hb.
  unfold file_text, file_nodes. rewrite flat_map_app, render_block, Hb. cbn [flat_map]. rewrite !render_words, !uint_int, app_nil_r, <- !app_assoc. reflexivity.
Qed.
Definition layout_file : bytes := file_of 1 1
  [PMeta [(str "k", str "v")]; PInst 3 (str "Part") [7]%Z true [x01]; PProp 3 (str "s") (Some (ARR tBool [VBool true]));
   PProp 9 (str "q") None; PPrnt 0 [7]%Z [-1]%Z; PUnknown 0x41420009 (str "z")].
(** The hypotheses are met by a file with an errored and an unknown chunk; this
    is its dump. *)
Definition dump_of (b : bytes) : outcome (err * list warning) (list warning * bytes) := Dump some_env no_lz (fun _ => 0) true b.
Example C93_witness : exists f ws st, decode no_lz (fun _ => 0) true layout_file = OK (DModel f, ws, st) /\
  (forall a, column_read (partial_of (fun _ => 0) f) f a -> ~ nested a) /\
  dump_of layout_file = OK (ws, str "Version: 0
Classes: 1
Instances: 1
Chunks: {
	#0: META (4D 45 54 41) (uncompressed) {
		Count: 1
		{
			Key: (len:1) ""k""
			Value: (len:1) ""v""
		}
	}
	#1: INST (49 4E 53 54) (uncompressed) {
		ClassID: 3
		ClassName: (len:4) ""Part""
		InstanceIDs: (count:1) (service) {
			0: 7 (1)
		}
	}
	#2: PROP (50 52 4F 50) (uncompressed) {
		ClassID: 3 (count:1, (len:4) ""Part"")
		PropertyName: (len:1) ""s""
		Properties: (count:1, (type:2) Bool) {
			0: true
		}
	}
	#3: PROP (50 52 4F 50) (uncompressed) {
		<errored chunk>
		Offset: 4
		Error: error
		Chunk:
			PROP (50 52 4F 50) (uncompressed) {
				ClassID: 9
				PropertyName: (len:0) """"
			}
		Bytes: (len:9)
			| 09 00 00 00 01 00 00 00  71 |........q|
	}
	#4: PRNT (50 52 4E 54) (uncompressed) {
		Version: 0
		Values (child : parent)
			7 : -1
	}
	#5: ..BA (09 00 42 41) (uncompressed) {
		<unknown chunk signature>
		Bytes: (len:1)
			| 7a |z|
	}
	#6: END. (45 4E 44 00) (uncompressed) {
		Content: (len:9) ""</roblox>""
	}
}").
Proof.
  destruct (decode no_lz (fun _ => 0) true layout_file) as [[[[b|f] ws] st]|?| |] eqn:E; [vm_compute in E; discriminate| |vm_compute in E; discriminate..].
  exists f, ws, st. split; [reflexivity|].
  assert (Hn : forall a, column_read (partial_of (fun _ => 0) f) f a -> ~ nested a).
  { vm_compute in E. injection E as <- _ _. intros a (ic & id & name & Hic & Ea) (v & ps & ps' & ->). vm_compute in Hic.
    repeat (destruct Hic as [<-|Hic]; [vm_compute in Ea; discriminate Ea|]). destruct Hic. }
  split; [exact Hn|]. unfold dump_of. rewrite (C93_layout _ _ _ _ _ _ _ _ E Hn). do 2 f_equal. 
  vm_compute in E. injection E as <- _ _. vm_compute. reflexivity.
Qed.
(** A column of an optional of an optional that breaks off. *)
Definition broken_optional_file : bytes := file_of 1 1
  [PInst 3 (str "Part") [7]%Z false []; PUnknown sigPROP (le32 3 ++ le32 1 ++ str "s" ++ [x1e; x1e; x02; x01]); PPrnt 0 [7]%Z [-1]%Z].
Lemma C94_witness : (exists f ws st, decode no_lz (fun _ => 0) true broken_optional_file = OK (DModel f, ws, st) /\ ~ has_undumpable f) /\
  dump_of broken_optional_file = Panic.
Proof.
  split; [|vm_compute; reflexivity].
  destruct (decode no_lz (fun _ => 0) true broken_optional_file) as [[[[b|f] ws] st]|?| |] eqn:E; [vm_compute in E; discriminate| |vm_compute in E; discriminate..].
  exists f, ws, st. split; [reflexivity|]. vm_compute in E. injection E as <- _ _. intros (c & id & name & a & Hc & Ec & _). cbn in Hc.
  repeat (destruct Hc as [<-|Hc]; [discriminate Ec|]). destruct Hc.
Qed.
Print Assumptions C93_layout.
Print Assumptions C94_panics.
Print Assumptions C94_text.
