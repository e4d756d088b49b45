(** PropDump.v - C82 - C86: the textual dump of a binary file. *)
From Verif Require Import Base RbxlValues RbxlArrays RbxlArraysProofs RbxlModel RbxlModelProofs RbxlFile RbxlFileProofs RbxValues Tree
  RbxlCodec RbxlApi XmlText Json RbxlDump SpecValues SpecArrays SpecModel SpecFile RbxlCodecTree SpecDump DumpProofs DumpQuote DumpValues DumpFile PropDecode.

(** ** C82: when there is a dump *)
Lemma dump_payload_cases de k cs p : read_shape p -> is_errp p = false ->
  (exists t, dump_payload de k cs p = OK t /\ forall id name a, p = PProp id name (Some a) -> ~ undumpable a) \/
  (dump_payload de k cs p = Panic /\ exists id name a, p = PProp id name (Some a) /\ undumpable a).
Proof.
  intros Hs He. destruct p as [vs|v vs|id name ids svc gs|id name [a|]|v cl pl|c|sg c|sg off e c]; try discriminate He;
    try (left; eexists; split; [reflexivity|discriminate]).
  cbn [dump_payload read_shape] in *. destruct (undumpable_dec a Hs) as [Hu|Hu].
  - right. rewrite (dump_array_panic de k a Hs Hu). split; [reflexivity|]. exists id, name, a. auto.
  - left. destruct (dump_array_ok de k a Hs Hu) as [b ->]. cbn [obind]. eexists. split; [reflexivity|]. intros id' name' a' [= _ _ <-]. exact Hu.
Qed.
Lemma inner_ok de k cs p : dump_payload de k cs p <> Panic -> exists t, dump_payload de k cs p = OK t.
Proof.
  destruct p as [vs|v vs|id name ids svc gs|id name [a|]|v cl pl|c|sg c|sg off e c]; try (intros _; eexists; reflexivity).
  cbn [dump_payload]. intros H.
  assert (Gt : forall a i, exists o, arr_get a i = o /\ match o with OK _ | Panic => True | _ => False end).
  { clear. fix IH 1. intros [t vs|[a|] ps] i; cbn [arr_get]; [destruct (nth_error vs i); eexists; (split; [reflexivity|exact I])| |eexists; (split; [reflexivity|exact I])].
    destruct (nth_error ps i) as [[]|]; [apply IH|eexists; (split; [reflexivity|exact I])..]. }
  assert (W : forall (f : nat -> res bytes), (forall j, match f j with OK _ | Panic => True | _ => False end) -> forall n i, match write_loop n i f with OK _ | Panic => True | _ => False end).
  { intros f Hf. induction n as [|n IH]; intros i; [exact I|]. cbn [write_loop]. specialize (Hf i). destruct (f i); try contradiction; cbn [obind]; [|exact I].
    specialize (IH (S i)). destruct (write_loop n (S i) f); try contradiction; exact I. }
  assert (D : match dump_array de k a with OK _ | Panic => True | _ => False end).
  { unfold dump_array, dump_optional. destruct a as [t vs|[a|] ps]; [| |exact I].
    - match goal with |- context [write_loop ?n 0 ?f] => pose proof (W f) as Wf; destruct (write_loop n 0 f) eqn:E end; try exact I; exfalso.
      all: match type of E with write_loop ?n ?i _ = _ => specialize (fun H => Wf H n i) end; rewrite E in Wf; apply Wf; intros j;
        destruct (Gt (ARR t vs) j) as ([[?|]|?| |] & -> & K); try contradiction; exact I.
    - match goal with |- context [write_loop ?n 0 ?f] => pose proof (W f) as Wf; destruct (write_loop n 0 f) eqn:E end; try exact I; exfalso.
      all: match type of E with write_loop ?n ?i _ = _ => specialize (fun H => Wf H n i) end; rewrite E in Wf; apply Wf; intros j; cbv zeta;
        destruct (nth_error ps j); try exact I; destruct (Gt a j) as ([[?|]|?| |] & -> & K); try contradiction; exact I. }
  destruct (dump_array de k a); try contradiction; cbn [obind] in *; eauto.
Qed.
Lemma dump_chunk_cases de inner i cs c : inner_fine de inner -> read_shape (ch_payload c) ->
  (exists b cs', dump_chunk de i (inner i) cs c = OK (b, cs') /\ forall id name a, ch_payload c = PProp id name (Some a) -> ~ undumpable a) \/
  (dump_chunk de i (inner i) cs c = Panic /\ exists id name a, ch_payload c = PProp id name (Some a) /\ undumpable a).
Proof.
  intros Hi Hs. unfold dump_chunk. destruct c as [z p]. cbn [ch_payload ch_compressed] in *.
  destruct (is_errp p) eqn:E.
  - destruct p; try discriminate E. left. destruct (inner_ok de 3 (class_add cs (inner i)) (inner i)) as [t ->]; [apply Hi|].
    cbn [obind]. eexists; eexists; split; [reflexivity|discriminate].
  - destruct (dump_payload_cases de 1 (class_add cs p) p Hs E) as [(t & Et & K)|(Et & K)]; destruct p; try discriminate E; rewrite Et; cbn [obind];
      [left; eexists; eexists; (split; [reflexivity|exact K])..|right; auto; fail|right; auto; fail|right; auto; fail|right; auto; fail|right; auto; fail|right; auto; fail|right; auto].
Qed.
Lemma dump_chunks_cases de inner : inner_fine de inner -> forall l i cs, Forall (fun c => read_shape (ch_payload c)) l ->
  (exists b, dump_chunks de inner i cs l = OK b /\ forall c id name a, In c l -> ch_payload c = PProp id name (Some a) -> ~ undumpable a) \/
  (dump_chunks de inner i cs l = Panic /\ exists c id name a, In c l /\ ch_payload c = PProp id name (Some a) /\ undumpable a).
Proof.
  intros Hi. induction l as [|c l IH]; intros i cs F; cbn [dump_chunks]; [left; exists []; split; [reflexivity|contradiction]|].
  inversion F; subst. destruct (dump_chunk_cases de inner i cs c Hi) as [(b & cs' & -> & K)|(-> & id & name & a & E & U)]; [assumption| |].
  - cbn [obind]. destruct (IH (S i) cs') as [(b' & -> & K')|(-> & d & id & name & a & Hd & E & U)]; [assumption| |]; cbn [obind].
    + left. eexists. split; [reflexivity|]. intros d id name a [<-|Hd]; eauto.
    + right. split; [reflexivity|]. exists d, id, name, a. split; [now right|auto].
  - right. split; [reflexivity|]. exists c, id, name, a. split; [now left|auto].
Qed.
Lemma dump_model_cases de inner lz spare noXML input f ws st : inner_fine de inner -> decode lz spare noXML input = OK (DModel f, ws, st) ->
  (exists t, dump_model de inner f = OK t /\ ~ has_undumpable f) \/ (dump_model de inner f = Panic /\ has_undumpable f).
Proof.
  intros Hi Hd. unfold dump_model. destruct (dump_chunks_cases de inner Hi (fm_chunks f) 0 [] (decode_shapes _ _ _ _ _ _ _ Hd)) as [(b & -> & K)|(-> & K)]; cbn [obind].
  - left. eexists. split; [reflexivity|]. intros (c & id & name & a & Hc & E & U). now apply (K c id name a).
  - right. split; [reflexivity|]. exact K.
Qed.

(** A file that can be read is dumped, with the warnings of reading, exactly
    when no optional column has an optional column inside that lacks a cell;
    otherwise Dump panics. *)
Theorem C82_dumped : forall de inner lz spare noXML input f ws st,
  inner_fine de inner -> decode lz spare noXML input = OK (DModel f, ws, st) -> ~ has_undumpable f ->
  exists text, Decoder_Dump de inner lz spare noXML input = OK (ws, text).
Proof.
  intros de inner lz spare noXML input f ws st Hi Hd Hn. unfold Decoder_Dump. rewrite Hd.
  destruct (dump_model_cases de inner _ _ _ _ _ _ _ Hi Hd) as [(t & -> & _)|(_ & U)]; [eauto|contradiction].
Qed.
Theorem C82_dump_panics : forall de inner lz spare noXML input f ws st,
  inner_fine de inner -> decode lz spare noXML input = OK (DModel f, ws, st) -> has_undumpable f ->
  Decoder_Dump de inner lz spare noXML input = Panic.
Proof.
  intros de inner lz spare noXML input f ws st Hi Hd Hu. unfold Decoder_Dump. rewrite Hd.
  destruct (dump_model_cases de inner _ _ _ _ _ _ _ Hi Hd) as [(t & _ & N)|(-> & _)]; [contradiction|reflexivity].
Qed.
(** Errors of Dump are those of Decode, with the same warnings; XML input,
    which Decode would hand over to the XML decoder, is ErrXML. *)
Theorem C82_same_errors : forall de inner lz spare q2m xml noXML input e ws,
  inner_fine de inner -> Decoder_Dump de inner lz spare noXML input = Err (e, ws) ->
  Decoder_Decode lz spare q2m xml noXML input = Err (FErr e, map WFile ws) \/
  (e = EXML /\ noXML = false /\ exists b, Decoder_Decode lz spare q2m xml noXML input = xml b).
Proof.
  intros de inner lz spare q2m xml noXML input e ws Hi. unfold Decoder_Dump, Decoder_Decode.
  destruct (decode lz spare noXML input) as [[[[b|f] ws'] st]|[[e' ws'] st]| |] eqn:Hd; try discriminate.
  - intros H. injection H as <- <-. right. split; [reflexivity|]. split; [|eauto]. unfold decode in Hd.
    destruct (decode_cases lz (dec_step spare) noXML input)
      as [(cc & ic & rsv & b0 & _ & H1 & H2 & H3 & E)|[(c & r & _ & _ & E)|(e & st' & E & _)]]; rewrite E in Hd; try discriminate.
    + unfold after_header in Hd. destruct (chunk_loop _ _ _ _ _ _) as [[s rest]|[e s]| |]; discriminate.
    + destruct noXML; [discriminate|reflexivity].
  - destruct (dump_model_cases de inner _ _ _ _ _ _ _ Hi Hd) as [(t & -> & _)|(-> & _)]; discriminate.
  - intros H. injection H as <- <-. left. reflexivity.
Qed.
(** Conversely nothing is dumped of what cannot be read. *)
Theorem C82_only_readable : forall de inner lz spare noXML input ws text,
  Decoder_Dump de inner lz spare noXML input = OK (ws, text) -> exists f st, decode lz spare noXML input = OK (DModel f, ws, st).
Proof.
  intros de inner lz spare noXML input ws text. unfold Decoder_Dump.
  destruct (decode lz spare noXML input) as [[[[b|f] ws'] st]|[[e' ws'] st]| |] eqn:Hd; try discriminate.
  destruct (dump_model de inner f); try discriminate. intros H. injection H as <- _. eauto.
Qed.
Theorem C82_plain_dumped : forall de inner lz spare noXML input f ws st,
  inner_fine de inner -> decode lz spare noXML input = OK (DModel f, ws, st) -> ~ has_nested f ->
  exists text, Decoder_Dump de inner lz spare noXML input = OK (ws, text).
Proof.
  intros de inner lz spare noXML input f ws st Hi Hd Hn. apply (C82_dumped _ _ _ _ _ _ _ _ _ Hi Hd).
  intros (c & id & name & a & Hc & E & v & ps & i & -> & _ & M). apply Hn. exists c, id, name, (AOPT (Some v) ps). split; [exact Hc|]. split; [exact E|].
  destruct v as [|[v|] ps']; try contradiction M. unfold nested. eauto.
Qed.

(** Concrete files.  The tables of the examples: numbers for floating point
    numbers, and everything but control characters printable. *)
Definition some_env : denv :=
  DEnv (fun f => FormatUint (plain32 f)) (fun f => FormatUint (plain64 f)) FormatUint
       (fun r => (0x20 <=? r)%N && negb (r =? 0x7f)%N) (fun r => (0x20 <=? r)%N && negb (r =? 0x7f)%N) (fun _ => str "error").
Definition some_inner : nat -> payload := fun _ => PEnd [].
Lemma some_float_text : float_text some_env.
Proof.
  split; cbn [de_f32 de_f64 some_env]; intros; [apply numeric_uint|apply numeric_uint| |]; now apply FormatUint_inj.
Qed.
Lemma some_print : print_table some_env.
Proof. intros r H. cbn in H. apply andb_prop in H. destruct H as [H K]. apply N.leb_le in H. split; [exact H|]. intros ->. discriminate K. Qed.
Lemma some_inner_fine : inner_fine some_env some_inner.
Proof. intros i cs. discriminate. Qed.
Definition dumped (b : bytes) : outcome (err * list warning) (list warning * bytes) :=
  Decoder_Dump some_env some_inner no_lz (fun _ => 0) true b.
Example C82_witness : exists f ws st text, decode no_lz (fun _ => 0) true good_file = OK (DModel f, ws, st) /\ ~ has_nested f /\ dumped good_file = OK (ws, text).
Proof.
  destruct (decode no_lz (fun _ => 0) true good_file) as [[[[b|f] ws] st]|?| |] eqn:E; [vm_compute in E; discriminate| |vm_compute in E; discriminate..].
  assert (Hn : ~ has_nested f).
  { vm_compute in E. injection E as <- _ _. intros (c & id & name & a & Hc & Ec & v & ps & ps' & ->). cbn in Hc.
    repeat (destruct Hc as [<-|Hc]; [discriminate Ec|]). exact Hc. }
  destruct (C82_plain_dumped some_env some_inner _ _ _ _ _ _ _ some_inner_fine E Hn) as [t Ht]. eauto 8.
Qed.
Example C82_witness_errors : exists e ws, dumped (firstn 40 good_file) = Err (e, ws).
Proof. vm_compute. eauto. Qed.

(** A file that Decode reads, and Dump panics on. *)
Definition undumpable_file : bytes := file_of 1 1
  [PInst 0 (str "A") [0]%Z false [];
   PProp 0 (str "P") (Some (AOPT (Some (AOPT (Some (ARR tBool [VBool true])) [false])) [false]));
   PPrnt 0 [0]%Z [-1]%Z].
Theorem C82_panic_refuted :
  (exists f r h, decoded undumpable_file = Some (f, r, h) /\ r_instances r = [1] /\ has_undumpable f) /\
  dumped undumpable_file = Panic.
Proof.
  split; [|vm_compute; reflexivity]. eexists _, _, _. split; [vm_compute; reflexivity|]. split; [reflexivity|].
  exists (Chunk false (PProp 0 (str "P") (Some (AOPT (Some (AOPT (Some (ARR tBool [VBool true])) [false])) [false])))), 0%Z, (str "P"),
    (AOPT (Some (AOPT (Some (ARR tBool [VBool true])) [false])) [false]).
  split; [right; left; reflexivity|]. split; [reflexivity|]. exists (AOPT (Some (ARR tBool [VBool true])) [false]), [false], 0.
  split; [reflexivity|]. split; [repeat constructor|]. left. reflexivity.
Qed.

(** ** C83: bytes *)
Lemma two_hex_eq c : hex2 c = two_hex c.
Proof. destruct c; reflexivity. Qed.
Lemma ascii_eq c : ascii_char c = if (b2N c <? 32)%N || (126 <? b2N c)%N then x2e else c.
Proof. destruct c; reflexivity. Qed.
Lemma cells_columns (b pre r row : bytes) m : b = pre ++ r -> length pre = 16 * m -> row = firstn 16 r -> forall k c, c + k = 16 ->
  hex_cells k (length pre + c) (length pre) b = flat_map (column (16 <=? length b)%nat row) (seq c k).
Proof.
  intros -> Hp ->. induction k as [|k IH]; intros c Hc; [reflexivity|]. cbn [hex_cells seq flat_map].
  assert (En : nth_error (pre ++ r) (length pre + c) = nth_error (firstn 16 r) c).
  { rewrite nth_error_app2 by lia. replace (length pre + c - length pre) with c by lia.
    assert (Hc' : c < 16) by lia. clear - Hc'. revert r Hc'. generalize 16. induction c as [|c IH]; intros [|n] [|x r] H; try reflexivity; try lia. cbn [firstn nth_error]. apply IH. lia. }
  assert (Eg : ((S (length pre + c) mod 8 =? 0)%nat && (S (length pre + c) <? length pre + width)%nat) = (c =? 7)%nat).
  { unfold width. assert (Em : S (length pre + c) mod 8 = S c mod 8).
    { rewrite Hp. replace (S (16 * m + c)) with (S c + (2 * m) * 8) by lia. now rewrite Nat.mod_add by discriminate. }
    rewrite Em. destruct (Nat.ltb_spec (S (length pre + c)) (length pre + 16)) as [L|L].
    - assert (c < 15) by lia. do 15 (destruct c as [|c]; [reflexivity|]). lia.
    - assert (c = 15) by lia. subst c. reflexivity. }
  rewrite Eg, En. unfold column at 1. destruct (nth_error (firstn 16 r) c) as [x|] eqn:Ex.
  - rewrite two_hex_eq, <- app_assoc. do 2 f_equal. rewrite <- Nat.add_succ_r. apply IH. lia.
  - destruct (Nat.ltb_spec (length (pre ++ r)) width) as [L|L]; unfold width in L.
    + destruct (Nat.leb_spec 16 (length (pre ++ r))); [lia|]. cbn [app]. symmetry.
      assert (F : forall q, c <= q -> column false (firstn 16 r) q = []).
      { intros q Hq. unfold column. apply nth_error_None in Ex. destruct (nth_error (firstn 16 r) q) eqn:E; [|reflexivity]. assert (q < length (firstn 16 r)) by (apply nth_error_Some; congruence). lia. }
      clear - F. assert (G : forall k s, c <= s -> flat_map (column false (firstn 16 r)) (seq s k) = []).
      { intros n; induction n as [|n IHn]; intros s Hs; [reflexivity|]. cbn [seq flat_map]. rewrite F by lia. apply IHn. lia. }
      apply G. lia.
    + destruct (Nat.leb_spec 16 (length (pre ++ r))); [|lia]. rewrite <- app_assoc. do 2 f_equal. rewrite <- Nat.add_succ_r. apply IH. lia.
Qed.
Lemma lines_rows indent : forall r rs, rows r rs -> forall b pre m fuel, b = pre ++ r -> length pre = 16 * m -> length r <= fuel ->
  dump_lines fuel indent (length pre) b = flat_map (row_text indent (16 <=? length b)%nat) rs.
Proof.
  assert (Step : forall row r b pre m fuel, b = pre ++ row ++ r -> length pre = 16 * m -> 0 < length row -> length row <= 16 -> (r <> [] -> length row = 16) ->
    dump_lines (S fuel) indent (length pre) b = row_text indent (16 <=? length b)%nat row ++ dump_lines fuel indent (length pre + 16) b).
  { intros row r b pre m fuel E Hp H0 H1 H2. cbn [dump_lines].
    destruct (Nat.ltb_spec (length pre) (length b)) as [L|L]; [|rewrite E, !app_length in L; lia].
    assert (Er : firstn 16 (row ++ r) = row).
    { destruct r as [|x r]; [rewrite app_nil_r; now apply firstn_all2|]. rewrite firstn_app_exact by (rewrite H2; [reflexivity|discriminate]). reflexivity. }
    assert (Es : firstn width (skipn (length pre) b) = row).
    { rewrite E, skipn_app, skipn_all, Nat.sub_diag. cbn [app skipn]. exact Er. }
    pose proof (cells_columns b pre (row ++ r) row m E Hp (eq_sym Er) 16 0 eq_refl) as C. rewrite Nat.add_0_r in C.
    rewrite Es. change width with 16 at 1. rewrite C. unfold row_text, nl. cbn [app]. rewrite <- !app_assoc. cbn [app]. do 2 f_equal.
    rewrite (map_ext _ _ ascii_eq). reflexivity. }
  induction 1 as [|b H|b0 r rs H Hn Hr IH]; intros b' pre m fuel E Hp Hf.
  - rewrite app_nil_r in E. subst b'. destruct fuel; [reflexivity|]. cbn [dump_lines flat_map]. now rewrite Nat.ltb_irrefl.
  - destruct fuel as [|fuel]; [lia|]. rewrite (Step b [] b' pre m fuel); [|now rewrite app_nil_r|exact Hp|lia|lia|now intros []].
    cbn [flat_map]. f_equal. destruct fuel; [reflexivity|]. cbn [dump_lines]. destruct (Nat.ltb_spec (length pre + 16) (length b')) as [L|L]; [|reflexivity].
    rewrite E, app_length in L. lia.
  - destruct fuel as [|fuel]; [rewrite app_length in Hf; lia|]. rewrite (Step b0 r b' pre m fuel E Hp); [|lia|lia|auto].
    cbn [flat_map]. f_equal. specialize (IH b' (pre ++ b0) (S m) fuel). rewrite app_length, H in IH. apply IH; [now rewrite <- app_assoc|lia|].
    rewrite app_length in Hf. lia.
Qed.
(** Bytes are shown by their number, then in rows of sixteen, in hexadecimal
    and as text; bytes that fill no row are not padded. *)
Theorem C83_bytes_layout : forall indent b rs, rows b rs ->
  dumpBytes indent b = str "(len:" ++ FormatUint (N.of_nat (length b)) ++ str ")" ++ flat_map (row_text indent (16 <=? length b)%nat) rs.
Proof. intros indent b rs H. unfold dumpBytes. now rewrite (lines_rows indent b rs H b [] 0). Qed.
Theorem C83_rows : forall b, exists rs, rows b rs.
Proof.
  assert (G : forall n b, length b <= n -> exists rs, rows b rs).
  { induction n as [|n IH]; intros b L; [destruct b; [exists []; constructor|cbn in L; lia]|].
    destruct b as [|c b]; [exists []; constructor|]. destruct (Nat.leb_spec (length (c :: b)) 16) as [L1|L1].
    - exists [c :: b]. constructor. cbn [length] in *. lia.
    - destruct (IH (skipn 16 (c :: b))) as [rs Hr]; [rewrite skipn_length; cbn [length] in *; lia|].
      exists (firstn 16 (c :: b) :: rs). rewrite <- (firstn_skipn 16 (c :: b)) at 1. constructor; [|intros E|exact Hr].
      + apply firstn_length_le. lia.
      + apply (f_equal (@length byte)) in E. rewrite skipn_length in E. cbn [length] in *. lia. }
  intros b. apply (G (length b) b). lia.
Qed.
(** Whatever follows, the bytes can be read back, and where they end. *)
Theorem C83_bytes_unambiguous : forall indent b b' rest rest',
  dumpBytes indent b ++ rest = dumpBytes indent b' ++ rest' -> b = b' /\ rest = rest'.
Proof. exact cut_bytes. Qed.
Example C83_example : dumpBytes 0 (str "Hello, world! 0123" ++ [xff]) = str "(len:19)" ++ [x0a; x09] ++
  str "| 48 65 6c 6c 6f 2c 20 77  6f 72 6c 64 21 20 30 31 |Hello, world! 01|" ++ [x0a; x09] ++
  str "| 32 33 ff                                         |23.|".
Proof. vm_compute. reflexivity. Qed.

(** ** C84: strings *)
Theorem C84_string_unambiguous : forall de indent s s' rest rest',
  dumpString de indent s ++ rest = dumpString de indent s' ++ rest' -> s = s' /\ rest = rest'.
Proof. exact cut_string. Qed.
(** A quoted string is on one line. *)
Lemma hexes_high k n : Forall (fun c => (0x20 <= b2N c)%N) (hexes k n).
Proof.
  unfold hexes. apply Forall_forall. intros c H. apply in_map_iff in H. destruct H as (i & <- & _).
  assert (L : (N.land (N.shiftr n (4 * N.of_nat i)) 15 < 16)%N).
  { change 15%N with (N.ones 4). rewrite N.land_ones. apply N.mod_lt. discriminate. }
  revert L. generalize (N.land (N.shiftr n (4 * N.of_nat i)) 15). intros m L.
  do 16 (destruct m as [|m] using N.peano_ind; [vm_compute; discriminate|clear IHm]). lia.
Qed.
Lemma quote_high de t : print_table de -> piece t -> Forall (fun c => (0x20 <= b2N c)%N) (quote_rune de t).
Proof.
  intros P H. destruct t as [[ok r] s]. unfold quote_rune. destruct ok; cbn [negb].
  2:{ destruct H as (_ & a & -> & _). cbn [flat_map]. rewrite hex2_hexes, app_nil_r. repeat (constructor; [vm_compute; discriminate|]). apply hexes_high. }
  destruct H as [A ->]. pose proof (seq1_valid s A) as V.
  assert (Hs : (0x20 <= rune_val s)%N -> Forall (fun c => (0x20 <= b2N c)%N) s).
  { intros Hr. remember (rune_val s) as r eqn:Er. destruct V; repeat constructor; lia. }
  destruct ((rune_val s =? 0x22)%N || (rune_val s =? 0x5c)%N) eqn:E1.
  { constructor; [vm_compute; discriminate|]. apply Hs. apply orb_prop in E1. destruct E1 as [E|E]; apply N.eqb_eq in E; rewrite E; discriminate. }
  destruct (de_print de (rune_val s)) eqn:E2; [apply Hs; now apply P|].
  repeat match goal with |- Forall _ (if ?b then _ else _) => destruct b end;
    repeat (constructor; [vm_compute; discriminate|]); first [apply hexes_high|constructor].
Qed.
Theorem C84_one_line : forall de s, print_table de -> Forall (fun c => (0x20 <= b2N c)%N) (Quote de s).
Proof.
  intros de s P. unfold Quote. constructor; [vm_compute; discriminate|]. apply Forall_app. split; [|repeat constructor; vm_compute; discriminate].
  destruct (runes_spec (length s) s (le_n _)) as [F _]. induction F as [|t l Ht F IH]; [constructor|]. cbn [flat_map]. apply Forall_app. split; [now apply quote_high|exact IH].
Qed.
(** Plain text is shown as it is. *)
Theorem C84_plain_text : forall de indent s,
  Forall (fun c => (0x20 <= b2N c <= 0x7e)%N /\ c <> x22 /\ c <> x5c /\ de_print de (b2N c) = true /\ de_graphic de (b2N c) = true) s ->
  dumpString de indent s = str "(len:" ++ FormatUint (N.of_nat (length s)) ++ str ") " ++ [x22] ++ s ++ [x22].
Proof.
  intros de indent s F.
  assert (R : forall n, length s <= n -> runes n s = map (fun c => (true, b2N c, [c])) s).
  { clear - F. induction F as [|c s Hc F IH]; intros n L; [destruct n; reflexivity|]. destruct n as [|n]; [cbn in L; lia|]. cbn [runes map].
    assert (E : rune_len (c :: s) = 1). { cbn [rune_len]. destruct (N.ltb_spec (b2N c) 0x80); [reflexivity|]. destruct Hc as [Hc _]. lia. }
    rewrite E. cbn [firstn skipn]. rewrite IH by (cbn in L; lia). reflexivity. }
  unfold dumpString. rewrite (R (length s)) by lia.
  assert (G : forallb (fun t : bool * N * bytes => de_graphic de (snd (fst t))) (map (fun c => (true, b2N c, [c])) s) = true).
  { apply forallb_forall. intros t Ht. apply in_map_iff in Ht. destruct Ht as (c & <- & Hc). rewrite Forall_forall in F. now apply (F c Hc). }
  rewrite G. do 3 f_equal. unfold Quote. rewrite (R (length s)) by lia. cbn [app]. f_equal. f_equal. clear R G.
  induction F as [|c s (Hc & H1 & H2 & H3 & _) F IH]; [reflexivity|]. cbn [map flat_map]. rewrite IH. unfold quote_rune. cbn [negb]. rewrite H3.
  destruct (N.eqb_spec (b2N c) 0x22) as [E|_]; [change 0x22%N with (b2N x22) in E; apply b2N_inj in E; contradiction|].
  destruct (N.eqb_spec (b2N c) 0x5c) as [E|_]; [change 0x5c%N with (b2N x5c) in E; apply b2N_inj in E; contradiction|]. reflexivity.
Qed.
(** Text with a character that is not graphic is shown as bytes. *)
Theorem C84_not_graphic : forall de indent s a, In a s -> (b2N a < 0x20)%N -> de_graphic de (b2N a) = false -> dumpString de indent s = dumpBytes indent s.
Proof.
  intros de indent s a Ha Hl Hg. unfold dumpString.
  assert (R : forall n s, length s <= n -> In a s -> In (b2N a) (map (fun t => snd (fst t)) (runes n s))).
  { clear - Hl. induction n as [|n IH]; intros s L H; [destruct s; [contradiction|cbn in L; lia]|]. destruct s as [|c s]; [contradiction|]. cbn [runes].
    pose proof (rune_len_prefix (c :: s)) as P. pose proof (rune_len_bound (c :: s)) as B.
    destruct (rune_len (c :: s)) as [|m] eqn:E.
    - destruct H as [->|H]; [|right; apply IH; [cbn in L; lia|exact H]].
      exfalso. cbn [rune_len] in E. destruct (N.ltb_spec (b2N a) 0x80); [discriminate|lia].
    - cbn [map]. rewrite <- (firstn_skipn (S m) (c :: s)) in H. apply in_app_or in H. destruct H as [H|H].
      + left. cbn [fst snd]. assert (Q : seq1 (firstn (S m) (c :: s))) by (apply P; discriminate).
        apply seq1_valid in Q. destruct Q; repeat (destruct H as [->|H]; [try reflexivity; lia|]); destruct H.
      + right. apply IH; [rewrite skipn_length; cbn [length] in *; lia|exact H]. }
  destruct (forallb _ _) eqn:E; [|reflexivity]. exfalso. rewrite forallb_forall in E. specialize (R (length s) s (le_n _) Ha).
  apply in_map_iff in R. destruct R as (t & Et & Ht). specialize (E t Ht). cbn beta in E. rewrite Et in E. congruence.
Qed.
Example C84_example : dumpString some_env 0 (str "a""b\" ++ [xff; xc3; xa9]) = str "(len:7) ""a\""b\\\xff" ++ [xc3; xa9; x22].
Proof. vm_compute. reflexivity. Qed.
Example C84_witness : dumpString some_env 2 (str "Workspace") = str "(len:9) ""Workspace""".
Proof. apply C84_plain_text. repeat (constructor; [repeat split; try discriminate; vm_compute; discriminate|]). constructor. Qed.

(** ** C85: the whole dump *)
(** Two files without errored chunks and without optional columns inside
    optional columns that have the same dump have the same header, and the same
    chunks in the same order, up to what the format does not store and the
    bits of NaNs. *)
Theorem C85_unambiguous : forall de inner inner' lz lz' spare spare' noXML noXML' input input' f f' ws ws' st st' text,
  float_text de ->
  decode lz spare noXML input = OK (DModel f, ws, st) -> decode lz' spare' noXML' input' = OK (DModel f', ws', st') ->
  ~ has_errored f -> ~ has_errored f' -> ~ has_nested f -> ~ has_nested f' ->
  Decoder_Dump de inner lz spare noXML input = OK (ws, text) -> Decoder_Dump de inner' lz' spare' noXML' input' = OK (ws', text) ->
  fm_version f = fm_version f' /\ fm_classCount f = fm_classCount f' /\ fm_instCount f = fm_instCount f' /\
  map shown_chunk (fm_chunks f) = map shown_chunk (fm_chunks f').
Proof.
  intros de inner inner' lz lz' spare spare' noXML noXML' input input' f f' ws ws' st st' text FT Hd Hd' E E' N N' D D'.
  unfold Decoder_Dump in D, D'. rewrite Hd in D. rewrite Hd' in D'.
  destruct (dump_model de inner f) as [t|?| |] eqn:M; try discriminate. destruct (dump_model de inner' f') as [t'|?| |] eqn:M'; try discriminate.
  injection D as ->. injection D' as ->.
  assert (R : forall g, Forall (fun c => read_shape (ch_payload c)) (fm_chunks g) -> ~ has_errored g -> ~ has_nested g -> Forall readable (fm_chunks g)).
  { intros g S Er Ne. rewrite Forall_forall in *. intros c Hc. split; [now apply S|]. split.
    - unfold is_errored. destruct (ch_payload c) eqn:Ec; try reflexivity. exfalso. apply Er. exists c. eauto 8.
    - intros id name a Ec Hn. apply Ne. exists c, id, name, a. auto. }
  eapply (cut_model de FT inner inner'); eauto using decode_shapes.
Qed.
Example C85_witness : exists f ws st text, decode no_lz (fun _ => 0) true good_file = OK (DModel f, ws, st) /\ ~ has_nested f /\ ~ has_errored f /\
  dumped good_file = OK (ws, text).
Proof.
  destruct C82_witness as (f & ws & st & text & H1 & H2 & H3). exists f, ws, st, text. split; [exact H1|]. split; [exact H2|]. split; [|exact H3].
  vm_compute in H1. injection H1 as <- _ _. intros (c & s & o & e & b & Hc & Ec). cbn in Hc. repeat (destruct Hc as [<-|Hc]; [discriminate Ec|]). exact Hc.
Qed.
(** The inner type of an optional column inside an optional column is not shown. *)
Definition nested_file (t : tid) : bytes := file_of 1 1
  [PInst 0 (str "A") [0]%Z false [];
   PUnknown sigPROP (le32 0 ++ le32 1 ++ str "P" ++ [tid_byte tOptional; tid_byte tOptional; tid_byte t] ++
     match interleave [x00; x00; x00; x00; x02; x01; x02; x01] 4 with OK b => b | _ => [] end);
   PPrnt 0 [0]%Z [-1]%Z].
Theorem C85_nested_refuted :
  match dumped (nested_file tBrickColor), dumped (nested_file tInt), decoded (nested_file tBrickColor), decoded (nested_file tInt) with
  | OK ([], text), OK ([], text'), Some (f, _, _), Some (f', _, _) => text = text' /\ map shown_chunk (fm_chunks f) <> map shown_chunk (fm_chunks f')
  | _, _, _, _ => False
  end.
Proof. vm_compute. split; [reflexivity|discriminate]. Qed.

(** ** C86: labels *)
Lemma FormatInt_nat n : FormatInt (Z.of_N n) = FormatUint n.
Proof. unfold FormatInt. destruct (Z.ltb_spec (Z.of_N n) 0); [lia|]. now rewrite Zabs2N.id || now rewrite N2Z.id. Qed.
Lemma numbered_concat {A} (f : A -> bytes) k : forall l i,
  numbered f k i l = concat (map (fun ni => x0a :: repeat x09 k ++ FormatInt (Z.of_nat (fst ni)) ++ str ": " ++ snd ni) (combine (seq i (length l)) (map f l))).
Proof.
  induction l as [|a l IH]; intros i; [reflexivity|]. cbn [numbered length seq map combine concat fst snd]. rewrite IH.
  rewrite <- nat_N_Z, FormatInt_nat. unfold nl. cbn [app]. now rewrite <- !app_assoc.
Qed.
Definition line_text (de : denv) (k : nat) (l : String.string * item) : bytes := nl (S k) ++ str (fst l) ++ str ": " ++ show de (S k) (snd l).
Lemma show_block de k ls : show de k (IBlock ls) = braces k (flat_map (line_text de k) ls).
Proof. reflexivity. Qed.
Lemma fld_line de k name l i t : str name = str l ++ str ": " -> t = show de (S k) i -> fld k name t = line_text de k (l, i).
Proof. intros E ->. unfold fld, line_text. cbn [fst snd]. now rewrite E, <- app_assoc. Qed.
Lemma braces_eq k a b : a = b -> braces k a = braces k b.
Proof. now intros ->. Qed.
Lemma cat_eq (a b c d : bytes) : a = c -> b = d -> a ++ b = c ++ d.
Proof. now intros -> ->. Qed.
Ltac num :=
  lazymatch goal with
  | |- FormatUint _ = _ => symmetry; apply FormatInt_nat
  | |- FormatInt _ = _ => reflexivity
  | |- de_f32 _ _ = _ => reflexivity
  | |- de_time _ _ = _ => reflexivity
  | |- dumpString _ _ _ = _ => reflexivity
  | |- uniqueid_string _ _ _ = _ => cbn [show]; exact eq_refl
  end.
Ltac block := rewrite show_block; apply braces_eq; cbn [flat_map]; rewrite ?app_nil_r;
  repeat (lazymatch goal with |- fld _ _ _ ++ _ = _ ++ _ => apply cat_eq end; [apply fld_line; [reflexivity|try num]|]); try (apply fld_line; [reflexivity|try num]).
Lemma show_vec3 de k v : dump_vec3 de k v = show de k (vec3_item v).
Proof. unfold vec3_item, dump_vec3. block. Qed.
Lemma show_vec2 de k x y : dump_vec2 de k x y = show de k (vec2_item x y).
Proof. unfold vec2_item, dump_vec2. block. Qed.
Lemma show_color de k x y z : dump_color3 de k x y z = show de k (color_item x y z).
Proof. unfold color_item, dump_color3. block. Qed.
Lemma show_bool de k b : dump_bool b = show de k (IBool b).
Proof. now destruct b. Qed.
Lemma show_named de k w n : str w ++ str " (" ++ FormatUint n ++ str ")" = show de k (named w n).
Proof. unfold named. cbn [show]. now rewrite FormatInt_nat. Qed.
Lemma show_seq {A} de k (f : A -> item) (g : A -> bytes) l : (forall x, g x = show de (S k) (f x)) ->
  str "(count:" ++ FormatUint (N.of_nat (length l)) ++ str ") {" ++ numbered g (S k) 0 l ++ [x7d] = show de k (ISequence (map f l)).
Proof.
  intros H. cbn [show]. rewrite numbered_concat, !map_length, map_map, <- nat_N_Z, FormatInt_nat. rewrite (map_ext g (fun x => show de (S k) (f x)) H). reflexivity.
Qed.
(** Every line of the dump of a value shows the field that its label names. *)
Theorem C86_labels : forall de k v, ~ mislabelled v -> dump_value de k v = show de k (item_of v).
Proof.
  intros de k v H. destruct v; try contradiction (H I); clear H; cbn [dump_value item_of]; try reflexivity;
    try (cbn [show INat]; symmetry; apply FormatInt_nat);
    try apply show_color; try apply show_vec2; try apply show_vec3; try apply show_bool.
  - block.
  - block.
  - block; apply show_bool.
  - block; apply show_bool.
  - block.
  - (* CFrame *) destruct (Byte.eqb special x00); cbn [app].
    + rewrite show_block. apply braces_eq. cbn [flat_map]. rewrite app_nil_r. apply cat_eq; [apply fld_line; [reflexivity|num]|].
      apply cat_eq; [|apply fld_line; [reflexivity|apply show_vec3]]. reflexivity.
    + block. apply show_vec3.
  - block.
  - apply show_seq. intros kk. unfold dump_nsk. block.
  - apply show_seq. intros kk. unfold dump_csk. block. apply show_color.
  - block.
  - block; apply show_vec2.
  - destruct (Byte.eqb custom x00); cbn [app]; block.
  - block.
  - block.
  - block; apply show_named.
Qed.
(** Two types are not shown like this: the labels of two fields of a UDim2 are
    swapped, and the position of a quaternion CFrame is on the line of QW. *)
Theorem C86_udim2 : forall de k sx sy ox oy, dump_value de k (VUDim2 sx sy ox oy) =
  show de k (IBlock [("X.Scale", INum32 sx); ("Y.Scale", IInt ox); ("X.Offset", INum32 sy); ("Y.Offset", IInt oy)]%string).
Proof. intros. cbn [dump_value]. block. Qed.
Theorem C86_labels_refuted : exists de k v w, float_text de /\ v = VUDim2 0 0 7 0 /\ w = VCFrameQuat x00 0 0 0 1 (Vec3 0 0 0) /\
  dump_value de k v <> show de k (item_of v) /\ dump_value de k w <> show de k (item_of w).
Proof.
  exists some_env, 0, (VUDim2 0 0 7 0), (VCFrameQuat x00 0 0 0 1 (Vec3 0 0 0)). split; [exact some_float_text|]. split; [reflexivity|]. split; [reflexivity|].
  split; vm_compute; discriminate.
Qed.
Example C86_example : dump_value some_env 0 (VUDim2 5 6 7 8) = str "{" ++
  [x0a; x09] ++ str "X.Scale: 5" ++ [x0a; x09] ++ str "Y.Scale: 7" ++ [x0a; x09] ++ str "X.Offset: 6" ++ [x0a; x09] ++ str "Y.Offset: 8" ++ [x0a] ++ str "}".
Proof. vm_compute. reflexivity. Qed.
(** The text is not always UTF-8: the signature of an unknown chunk is written
    byte by byte. *)
Theorem C86_utf8_refuted : exists ws text, dumped (file_of 0 0 [PUnknown 0xa1a1a1a1 []]) = OK (ws, text) /\
  existsb (fun t => negb (fst (fst t))) (runes (length text) text) = true.
Proof. eexists _, _. split; [vm_compute; reflexivity|]. vm_compute. reflexivity. Qed.
