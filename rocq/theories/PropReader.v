(** PropReader.v - C79: the binary decoder on readers that give their bytes in
    pieces and end in any error. *)
From Verif Require Import Base RbxlValues RbxlArrays RbxlModel RbxlFile RbxlFileProofs RbxValues Tree RbxlCodec RbxlApi RbxlReader.
From Verif Require PropFile.
From Coq Require Import Lia.

Section R.
Context {E : Type}.
Variable fin : option E.
Variable joined : bool.

Definition is_eof (e : err) : bool := match e with EEOF | EUnexpectedEOF => true | _ => false end.
(** The error reported: where a byte string would have ended the decoding with
    EOF, a reader ends it with its own error. *)
Definition conv (e : err) : @rerr E := match fin with Some x => if is_eof e then RIO x else RErr e | None => RErr e end.

Lemma readFull_spec fuel : forall k got r, (length got <= k)%nat -> (S (S (length r)) <= fuel)%nat ->
  let b := got ++ concat r in
  if k <=? length b then
    exists r', readFull fin joined fuel k got r = (firstn k b, None, r') /\ concat r' = skipn k b
  else
    exists r', readFull fin joined fuel k got r = (b, Some (conv (match b with [] => EEOF | _ => EUnexpectedEOF end)), r') /\ concat r' = [].
Proof.
  induction fuel as [|fuel IH]; intros k got r Hg Hf; [lia|]. cbv zeta. cbn [readFull].
  destruct (Nat.leb_spec k (length got)) as [H|H].
  { assert (k = length got) by lia. subst k. rewrite app_length.
    replace (length got <=? length got + length (concat r)) with true by (symmetry; apply Nat.leb_le; lia).
    exists r. rewrite firstn_app, firstn_all, Nat.sub_diag, skipn_app, skipn_all, Nat.sub_diag. cbn. rewrite app_nil_r. auto. }
  destruct r as [|d r]; cbn [read].
  - cbn [concat]. rewrite !app_nil_r. replace (k <=? length got) with false by (symmetry; apply Nat.leb_gt; lia).
    exists []. split; [|reflexivity]. f_equal. f_equal. f_equal. unfold conv. destruct fin; [destruct got; reflexivity|reflexivity].
  - cbn [concat]. destruct (Nat.leb_spec (length d) (k - length got)) as [Hd|Hd].
    + destruct r as [|d2 r].
      * cbn [concat]. rewrite app_nil_r. destruct joined.
        -- destruct (k <=? length (got ++ d)) eqn:Ek.
           ++ apply Nat.leb_le in Ek. assert (k = length (got ++ d)) by (rewrite app_length in *; lia). subst k. exists [].
              rewrite firstn_all, skipn_all. auto.
           ++ exists []. split; [|reflexivity]. f_equal. f_equal. f_equal. unfold conv. destruct fin; [destruct (got ++ d); reflexivity|reflexivity].
        -- specialize (IH k (got ++ d) [] ltac:(rewrite app_length; lia) ltac:(cbn in *; lia)). cbv zeta in IH. cbn [concat] in IH.
           rewrite app_nil_r in IH. exact IH.
      * specialize (IH k (got ++ d) (d2 :: r) ltac:(rewrite app_length; lia) ltac:(cbn in *; lia)). cbv zeta in IH.
        rewrite <- app_assoc in IH. exact IH.
    + assert (L : (k <= length (got ++ d ++ concat r))%nat) by (rewrite !app_length; lia).
      replace (k <=? length (got ++ d ++ concat r)) with true by (symmetry; apply Nat.leb_le; exact L).
      destruct fuel as [|fuel']; [cbn in Hf; lia|]. cbn [readFull].
      replace (k <=? length (got ++ firstn (k - length got) d)) with true by (symmetry; apply Nat.leb_le; rewrite app_length, firstn_length; lia).
      exists (skipn (k - length got) d :: r). split.
      * f_equal. f_equal. rewrite firstn_app, (firstn_all2 got) by lia. f_equal. rewrite firstn_app.
        replace (k - length got - length d)%nat with 0%nat by lia. cbn. rewrite app_nil_r. reflexivity.
      * cbn [concat]. rewrite skipn_app, (skipn_all2 got) by lia. cbn [app]. rewrite skipn_app.
        replace (k - length got - length d)%nat with 0%nat by lia. reflexivity.
Qed.

(** ** In step with the decoder of byte strings *)
Definition at_ (total : nat) (b : bytes) (s : rs) : Prop := concat (rs_left s) = b /\ (rs_n s + length b = total)%nat.
Definition sim {A} (total : nat) (o : rres A) (o' : outcome (@rerr E * rs) (A * rs)) : Prop :=
  match o, o' with
  | OK (a, b), OK (a', s) => a = a' /\ at_ total b s
  | Err (e, b), Err (e', s) => e' = conv e /\ at_ total b s
  | Panic, Panic => True
  | Hang, Hang => True
  | _, _ => False
  end.
Lemma sim_bytes total n b s : at_ total b s -> sim total (rBytes n b) (opBytes fin joined n s).
Proof.
  intros [H1 H2]. unfold rBytes, opBytes.
  pose proof (readFull_spec (S (S (length (rs_left s)))) (N.to_nat n) [] (rs_left s) (Nat.le_0_l _) (le_n _)) as R.
  cbv zeta in R. cbn [app] in R. rewrite H1 in R.
  destruct (N.ltb_spec (N.of_nat (length b)) n) as [L|L].
  - replace (N.to_nat n <=? length b) with false in R by (symmetry; apply Nat.leb_gt; lia).
    destruct R as (r' & -> & Hr). cbn [sim]. split; [reflexivity|]. split; cbn [rs_left rs_n length]; [exact Hr|lia].
  - replace (N.to_nat n <=? length b) with true in R by (symmetry; apply Nat.leb_le; lia).
    destruct R as (r' & -> & Hr). cbn [sim]. split; [reflexivity|]. split; cbn [rs_left rs_n]; [exact Hr|].
    rewrite firstn_length, skipn_length. lia.
Qed.
Lemma sim_bind {A B} total (o : rres A) o' (f : A * bytes -> rres B) (f' : A * rs -> outcome (@rerr E * rs) (B * rs)) :
  sim total o o' -> (forall a b s, at_ total b s -> sim total (f (a, b)) (f' (a, s))) -> sim total (obind o f) (obind o' f').
Proof.
  intros H Hf. destruct o as [[a b]|[e b]| |], o' as [[a' s]|[e' s]| |]; cbn in H; try contradiction; try exact I.
  - destruct H as [<- H]. cbn [obind]. auto.
  - exact H.
Qed.
Lemma sim_num total k b s : at_ total b s -> sim total (rNum k b) (opNum fin joined k s).
Proof.
  intros H. unfold rNum, opNum. apply sim_bind; [apply sim_bytes, H|]. intros a b' s' H'. split; [reflexivity|exact H'].
Qed.
Lemma sim_raw total lz b s : at_ total b s -> sim total (raw_read lz b) (opRaw fin joined lz s).
Proof.
  intros H. unfold raw_read, opRaw.
  apply sim_bind; [apply sim_num, H|]. intros sg b1 s1 H1.
  apply sim_bind; [apply sim_num, H1|]. intros clen b2 s2 H2.
  apply sim_bind; [apply sim_num, H2|]. intros dlen b3 s3 H3.
  apply sim_bind; [apply sim_num, H3|]. intros ? b4 s4 H4.
  destruct (clen =? 0)%N.
  - apply sim_bind; [apply sim_bytes, H4|]. intros p b5 s5 H5. split; [reflexivity|exact H5].
  - destruct (2 ^ 32 <=? clen + 4)%N; [exact I|].
    apply sim_bind; [apply sim_bytes, H4|]. intros c b5 s5 H5. destruct (lz_dec lz dlen c).
    + split; [reflexivity|exact H5].
    + split; [|exact H5]. unfold conv. destruct fin; reflexivity.
Qed.
Definition never_eof (step : nat -> rawchunk -> dstate -> res (dstate * bool)) : Prop :=
  forall i rc d e, step i rc d = Err e -> is_eof e = false.
Lemma chunks_sim total lz step : never_eof step -> forall fuel i b s d, at_ total b s ->
  match chunk_loop lz step fuel i b d, opChunks fin joined lz step fuel i s d with
  | OK (d1, b1), OK (d2, s2) => d1 = d2 /\ at_ total b1 s2
  | Err (e, d1), Err (e', s2, d2) => e' = conv e /\ d1 = d2 /\ (exists b1, at_ total b1 s2) /\ (is_eof e = true -> rs_n s2 = total)
  | Panic, Panic => True
  | Hang, Hang => True
  | _, _ => False
  end.
Proof.
  intros Hst. induction fuel as [|fuel IH]; intros i b s d H; cbn [chunk_loop opChunks]; [exact I|].
  pose proof (sim_raw total lz b s H) as R.
  assert (EOF : forall e b1, raw_read lz b = Err (e, b1) -> is_eof e = true -> b1 = []).
  { assert (B : forall n x e b1, rBytes n x = Err (e, b1) -> b1 = []) by (intros n x e b1; unfold rBytes; destruct (_ <? _)%N; [|discriminate]; intros K; inversion K; reflexivity).
    assert (Nm : forall n x e b1, rNum n x = Err (e, b1) -> b1 = []).
    { intros n x e b1. unfold rNum. destruct (rBytes (N.of_nat n) x) as [[? ?]|[? ?]| |] eqn:Q; cbn; try discriminate. intros K. inversion K; subst. eapply B, Q. }
    intros e b1. unfold raw_read.
    destruct (rNum 4 b) as [[? c1]|[? ?]| |] eqn:Q1; cbn [obind]; try discriminate; [|intros K _; inversion K; subst; eapply Nm, Q1].
    destruct (rNum 4 c1) as [[clen c2]|[? ?]| |] eqn:Q2; cbn [obind]; try discriminate; [|intros K _; inversion K; subst; eapply Nm, Q2].
    destruct (rNum 4 c2) as [[dlen c3]|[? ?]| |] eqn:Q3; cbn [obind]; try discriminate; [|intros K _; inversion K; subst; eapply Nm, Q3].
    destruct (rNum 4 c3) as [[? c4]|[? ?]| |] eqn:Q4; cbn [obind]; try discriminate; [|intros K _; inversion K; subst; eapply Nm, Q4].
    destruct (clen =? 0)%N.
    - destruct (rBytes dlen c4) as [[? ?]|[? ?]| |] eqn:Q5; cbn [obind]; try discriminate. intros K _; inversion K; subst; eapply B, Q5.
    - destruct (2 ^ 32 <=? clen + 4)%N; [discriminate|].
      destruct (rBytes clen c4) as [[? ?]|[? ?]| |] eqn:Q5; cbn [obind]; try discriminate; [|intros K _; inversion K; subst; eapply B, Q5].
      destruct (lz_dec lz dlen b0); [discriminate|]. intros K; inversion K; subst. discriminate. }
  destruct (raw_read lz b) as [[rc b1]|[e b1]| |], (opRaw fin joined lz s) as [[rc' s1]|[e' s1]| |]; cbn in R; try contradiction; try exact I.
  - destruct R as [<- R]. destruct (step i rc d) as [[d1 []]|e| |] eqn:Es; try exact I.
    + auto.
    + apply IH, R.
    + split; [|split; [reflexivity|split; [eauto|]]].
      * unfold conv. rewrite (Hst _ _ _ _ Es). destruct fin; reflexivity.
      * rewrite (Hst _ _ _ _ Es). discriminate.
  - destruct R as [-> R]. repeat split; eauto. intros He. rewrite (EOF e b1 eq_refl He) in R. destruct R as [_ R]. cbn in R. lia.
Qed.

(** The comparison of the two decoders. *)
Definition same (b : bytes) (o : dres) (o' : @rdres E) : Prop :=
  match o with
  | Panic => o' = Panic
  | Hang => o' = Hang
  | OK (DXml x, ws, st) => exists left, o' = OK (RXml (firstn 8 x) left, ws, st) /\ x = firstn 8 x ++ concat left
  | OK (DModel f, ws, st) =>
      match fin with
      | None => o' = OK (RModel f, ws, st)
      | Some e => o' = Err (RdErr (length b) (RIO e), ws, st)
      end
  | Err (e, ws, st) =>
      exists off, o' = Err (RdErr off (conv e), ws, st) /\ (off <= length b)%nat /\ (is_eof e = true -> off = length b)
  end.
Lemma rBytes_eof n b e r : rBytes n b = Err (e, r) -> r = [].
Proof. unfold rBytes. destruct (_ <? _)%N; [|discriminate]. intros K. inversion K. reflexivity. Qed.
Lemma rNum_eof n b e r : rNum n b = Err (e, r) -> r = [].
Proof. unfold rNum. destruct (rBytes (N.of_nat n) b) as [[? ?]|[? ?]| |] eqn:Q; cbn; try discriminate. intros K. inversion K; subst. eapply rBytes_eof, Q. Qed.

Lemma decode_sim lz step noXML p : never_eof step ->
  same (concat p) (decode_body lz step noXML (concat p)) (decodeR fin joined lz step noXML p).
Proof.
  intros Hst. set (b := concat p). set (total := length b). unfold decode_body, decodeR.
  assert (H0 : at_ total b (RS p 0)) by (split; reflexivity).
  assert (CF : forall e, is_eof e = false -> conv e = RErr e) by (intros e He; unfold conv; rewrite He; destruct fin; reflexivity).
  assert (FE : forall e r s st, at_ total r s -> r = [] -> same b (fail e st) (failR (conv e) s st)).
  { intros e r s st [A1 A2] ->. exists (rs_n s). cbn in A2. repeat split; lia. }
  assert (FD : forall e r s st, at_ total r s -> is_eof e = false -> same b (fail e st) (failR (RErr e) s st)).
  { intros e r s st [A1 A2] He. exists (rs_n s). rewrite (CF e He). repeat split; [lia|congruence]. }
  pose proof (sim_bytes total 8 b _ H0) as S1. pose proof (rBytes_eof 8 b) as Q1.
  destruct (rBytes 8 b) as [[sg b1]|[e b1]| |] eqn:R1, (opBytes fin joined 8 (RS p 0)) as [[sg' s1]|[e' s1]| |]; cbn in S1; try contradiction; try reflexivity.
  2:{ destruct S1 as [-> S1]. eapply FE; [exact S1|eapply Q1; reflexivity]. }
  destruct S1 as [<- S1]. destruct (negb (bytes_eqb (firstn 7 sg) robloxSig)); [eapply FD; [exact S1|reflexivity]|].
  destruct (negb (bytes_eqb (skipn 7 sg) binaryMarker)).
  { destruct noXML; [eapply FD; [exact S1|reflexivity]|]. cbn [same].
    assert (L : length sg = 8) by (unfold rBytes in R1; destruct (N.ltb_spec (N.of_nat (length b)) 8); [discriminate|]; assert (G : sg = firstn (N.to_nat 8) b) by congruence; rewrite G, firstn_length; lia).
    assert (G : forall n, n = length sg -> firstn n (sg ++ b1) = sg) by (intros n ->; rewrite firstn_app, firstn_all, Nat.sub_diag; cbn [firstn]; apply app_nil_r).
    exists (rs_left s1). rewrite (G 8) by (symmetry; exact L).
    split; [reflexivity|]. destruct S1 as [-> _]. reflexivity. }
  pose proof (sim_bytes total 6 b1 _ S1) as S2. pose proof (rBytes_eof 6 b1) as Q2.
  destruct (rBytes 6 b1) as [[hd b2]|[e b2]| |], (opBytes fin joined 6 s1) as [[hd' s2]|[e' s2]| |]; cbn in S2; try contradiction; try reflexivity.
  2:{ destruct S2 as [-> S2]. eapply FE; [exact S2|eapply Q2; reflexivity]. }
  destruct S2 as [<- S2]. destruct (negb (bytes_eqb hd binaryHeader)); [eapply FD; [exact S2|reflexivity]|].
  pose proof (sim_num total 2 b2 _ S2) as S3. pose proof (rNum_eof 2 b2) as Q3.
  destruct (rNum 2 b2) as [[v b3]|[e b3]| |], (opNum fin joined 2 s2) as [[v' s3]|[e' s3]| |]; cbn in S3; try contradiction; try reflexivity.
  2:{ destruct S3 as [-> S3]. eapply FE; [exact S3|eapply Q3; reflexivity]. }
  destruct S3 as [<- S3]. destruct (negb (v =? 0)%N); [eapply FD; [exact S3|reflexivity]|].
  pose proof (sim_num total 4 b3 _ S3) as S4. pose proof (rNum_eof 4 b3) as Q4.
  destruct (rNum 4 b3) as [[cc b4]|[e b4]| |], (opNum fin joined 4 s3) as [[cc' s4]|[e' s4]| |]; cbn in S4; try contradiction; try reflexivity.
  2:{ destruct S4 as [-> S4]. eapply FE; [exact S4|eapply Q4; reflexivity]. }
  destruct S4 as [<- S4].
  pose proof (sim_num total 4 b4 _ S4) as S5. pose proof (rNum_eof 4 b4) as Q5.
  destruct (rNum 4 b4) as [[ic b5]|[e b5]| |], (opNum fin joined 4 s4) as [[ic' s5]|[e' s5]| |]; cbn in S5; try contradiction; try reflexivity.
  2:{ destruct S5 as [-> S5]. eapply FE; [exact S5|eapply Q5; reflexivity]. }
  destruct S5 as [<- S5].
  pose proof (sim_bytes total 8 b5 _ S5) as S6. pose proof (rBytes_eof 8 b5) as Q6.
  destruct (rBytes 8 b5) as [[rsv b6]|[e b6]| |], (opBytes fin joined 8 s5) as [[rsv' s6]|[e' s6]| |]; cbn in S6; try contradiction; try reflexivity.
  2:{ destruct S6 as [-> S6]. eapply FE; [exact S6|eapply Q6; reflexivity]. }
  destruct S6 as [<- S6]. pose proof S6 as [S6a S6b]. rewrite S6a.
  replace (rs_n s6 - 8)%nat with (length b - length b6 - 8)%nat by (unfold total in S6b; lia).
  match goal with |- context [chunk_loop lz step ?fu 0 b6 ?d0] => pose proof (chunks_sim total lz step Hst fu 0 b6 s6 d0 S6) as S7;
    destruct (chunk_loop lz step fu 0 b6 d0) as [[d1 b7]|[e d1]| |], (opChunks fin joined lz step fu 0 s6 d0) as [[d2 s7]|[[e' s7] d2]| |] end;
    try contradiction; try reflexivity.
  - destruct S7 as [<- [S7a S7b]]. unfold readAll. cbn [same]. destruct fin as [x|].
    + f_equal. f_equal. f_equal. f_equal. rewrite S7a. unfold total in S7b. exact S7b.
    + rewrite S7a. reflexivity.
  - destruct S7 as (-> & <- & (b7 & S7a & S7b) & S7c). exists (rs_n s7). repeat split; [unfold total in S7b; lia|]. intros He. apply S7c, He.
Qed.

Lemma dec_step_never spare : never_eof (dec_step spare).
Proof.
  intros i rc d e H. unfold dec_step in H. destruct (read_payload _ _ _ _) as [[p r]|[e' r]| |]; discriminate.
Qed.
Lemma dcomp_step_never : never_eof (fun _ rc s => OK (dcomp_step rc s)).
Proof. intros i rc d e H. discriminate. Qed.

(** Decoder.decode and the decoding half of Decompress: whatever the pieces,
    the result is that of the whole byte string; but if the reader ends in an
    error other than io.EOF, that error is the result, also where the decoder
    had seen the end of the file and only the bytes after it were left.  The
    Offset never exceeds the bytes of the reader, and is all of them when they
    ran out. *)
Theorem C79_decode : forall lz spare noXML p,
  same (concat p) (decode lz spare noXML (concat p)) (decode_reader fin joined lz spare noXML p).
Proof. intros. apply decode_sim, dec_step_never. Qed.
Theorem C79_decompress : forall lz noXML p,
  same (concat p) (decode_dcomp lz noXML (concat p)) (decompress_reader fin joined lz noXML p).
Proof. intros. apply decode_sim, dcomp_step_never. Qed.
End R.

(** ** Two readers of the same bytes in step *)
Section Two.
Context {E : Type}.
Variable fin : option E.
Variables j j' : bool.
Definition eqv (s s' : rs) : Prop := concat (rs_left s) = concat (rs_left s') /\ rs_n s = rs_n s'.
Definition sim2 {A} (o o' : outcome (@rerr E * rs) (A * rs)) : Prop :=
  match o, o' with
  | OK (a, s), OK (a', s') => a = a' /\ eqv s s'
  | Err (e, s), Err (e', s') => e = e' /\ eqv s s'
  | Panic, Panic => True
  | Hang, Hang => True
  | _, _ => False
  end.
Lemma sim2_bytes n s s' : eqv s s' -> sim2 (opBytes fin j n s) (opBytes fin j' n s').
Proof.
  intros [H1 H2].
  pose proof (sim_bytes fin j (rs_n s + length (concat (rs_left s))) n _ s (conj eq_refl eq_refl)) as A.
  pose proof (sim_bytes fin j' (rs_n s + length (concat (rs_left s))) n (concat (rs_left s)) s' (conj (eq_sym H1) (f_equal (fun x => x + length (concat (rs_left s)))%nat (eq_sym H2)))) as B.
  destruct (rBytes n (concat (rs_left s))) as [[w b]|[e b]| |], (opBytes fin j n s) as [[w1 s1]|[e1 s1]| |], (opBytes fin j' n s') as [[w2 s2]|[e2 s2]| |];
    cbn in A, B; try contradiction; try exact I; destruct A as [A0 [A1 A2]], B as [B0 [B1 B2]]; (split; [congruence|split; [congruence|]]).
  all: apply (Nat.add_cancel_r _ _ (length b)); exact (eq_trans A2 (eq_sym B2)).
Qed.
Lemma sim2_bind {A B} (o o' : outcome (@rerr E * rs) (A * rs)) (f f' : A * rs -> outcome (@rerr E * rs) (B * rs)) :
  sim2 o o' -> (forall a s s', eqv s s' -> sim2 (f (a, s)) (f' (a, s'))) -> sim2 (obind o f) (obind o' f').
Proof.
  intros H Hf. destruct o as [[a b]|[e b]| |], o' as [[a' s]|[e' s]| |]; cbn in H; try contradiction; try exact I.
  - destruct H as [<- H]. cbn [obind]. auto.
  - exact H.
Qed.
Lemma sim2_num k s s' : eqv s s' -> sim2 (opNum fin j k s) (opNum fin j' k s').
Proof. intros H. unfold opNum. apply sim2_bind; [apply sim2_bytes, H|]. intros a t t' H'. split; [reflexivity|exact H']. Qed.
Lemma sim2_raw lz s s' : eqv s s' -> sim2 (opRaw fin j lz s) (opRaw fin j' lz s').
Proof.
  intros H. unfold opRaw.
  apply sim2_bind; [apply sim2_num, H|]. intros sg s1 s1' H1.
  apply sim2_bind; [apply sim2_num, H1|]. intros clen s2 s2' H2.
  apply sim2_bind; [apply sim2_num, H2|]. intros dlen s3 s3' H3.
  apply sim2_bind; [apply sim2_num, H3|]. intros ? s4 s4' H4.
  destruct (clen =? 0)%N.
  - apply sim2_bind; [apply sim2_bytes, H4|]. intros p s5 s5' H5. split; [reflexivity|exact H5].
  - destruct (2 ^ 32 <=? clen + 4)%N; [exact I|].
    apply sim2_bind; [apply sim2_bytes, H4|]. intros c s5 s5' H5. destruct (lz_dec lz dlen c); split; try reflexivity; exact H5.
Qed.
Lemma sim2_chunks lz step : forall fuel i s s' d, eqv s s' ->
  match opChunks fin j lz step fuel i s d, opChunks fin j' lz step fuel i s' d with
  | OK (d1, t), OK (d2, t') => d1 = d2 /\ eqv t t'
  | Err (e, t, d1), Err (e', t', d2) => e = e' /\ d1 = d2 /\ eqv t t'
  | Panic, Panic => True
  | Hang, Hang => True
  | _, _ => False
  end.
Proof.
  induction fuel as [|fuel IH]; intros i s s' d H; cbn [opChunks]; [exact I|].
  pose proof (sim2_raw lz s s' H) as R.
  destruct (opRaw fin j lz s) as [[rc b1]|[e b1]| |], (opRaw fin j' lz s') as [[rc' s1]|[e' s1]| |]; cbn in R; try contradiction; try exact I.
  - destruct R as [<- R]. destruct (step i rc d) as [[d1 []]|e| |]; try exact I; [auto|apply IH, R|auto].
  - destruct R as [-> R]. auto.
Qed.
Definition same2 (o o' : @rdres E) : Prop :=
  match o, o' with
  | OK (RXml sg rest, ws, st), OK (RXml sg' rest', ws', st') => sg = sg' /\ concat rest = concat rest' /\ ws = ws' /\ st = st'
  | OK (RModel f, ws, st), OK (RModel f', ws', st') => f = f' /\ ws = ws' /\ st = st'
  | Err (e, ws, st), Err (e', ws', st') => e = e' /\ ws = ws' /\ st = st'
  | Panic, Panic => True
  | Hang, Hang => True
  | _, _ => False
  end.
Lemma decodeR_sim2 lz step noXML p p' : concat p = concat p' -> same2 (decodeR fin j lz step noXML p) (decodeR fin j' lz step noXML p').
Proof.
  intros H. unfold decodeR.
  assert (H0 : eqv (RS p 0) (RS p' 0)) by (split; [exact H|reflexivity]).
  assert (F : forall (e e' : @rerr E) s s' st, e = e' /\ eqv s s' -> same2 (failR e s st) (failR e' s' st)) by (intros e e' s s' st [-> [_ Q]]; unfold failR; cbn; rewrite Q; auto).
  Ltac step2 L H s t :=
    pose proof L as H;
    match type of H with sim2 ?a ?b => destruct a as [[? s]|[? s]| |], b as [[? t]|[? t]| |] end; cbn in H; try contradiction; try exact I; [|match goal with F : forall _ _ _ _ _, _ -> same2 _ _ |- _ => apply F, H end]; destruct H as [<- H].
  step2 (sim2_bytes 8 _ _ H0) S1 s1 t1.
  destruct (negb (bytes_eqb (firstn 7 b) robloxSig)); [apply F; auto|].
  destruct (negb (bytes_eqb (skipn 7 b) binaryMarker)).
  { destruct noXML; [apply F; auto|]. cbn. destruct S1 as [S1 _]. auto. }
  step2 (sim2_bytes 6 _ _ S1) S2 s2 t2.
  destruct (negb (bytes_eqb b0 binaryHeader)); [apply F; auto|].
  step2 (sim2_num 2 _ _ S2) S3 s3 t3.
  destruct (negb (n =? 0)%N); [apply F; auto|].
  step2 (sim2_num 4 _ _ S3) S4 s4 t4.
  step2 (sim2_num 4 _ _ S4) S5 s5 t5.
  step2 (sim2_bytes 8 _ _ S5) S6 s6 t6.
  pose proof S6 as [S6a S6b]. rewrite <- S6a, <- S6b.
  match goal with |- context [opChunks fin j lz step ?fu 0 s6 ?d0] => pose proof (sim2_chunks lz step fu 0 s6 t6 d0 S6) as S7;
    destruct (opChunks fin j lz step fu 0 s6 d0) as [[d1 s7]|[[e s7] d1]| |], (opChunks fin j' lz step fu 0 t6 d0) as [[d2 t7]|[[e' t7] d2]| |] end;
    try contradiction; try exact I.
  - destruct S7 as [<- [S7a S7b]]. unfold readAll. rewrite <- S7a, <- S7b. destruct fin; cbn; repeat split; reflexivity.
  - destruct S7 as (-> & <- & _ & Q). cbn. rewrite Q. auto.
Qed.
End Two.

(** So: how the bytes are cut does not matter, nor whether the error comes with
    the last of them; the model or error, its Offset, the warnings and the
    statistics are the same. *)
Theorem C79_pieces : forall E (fin : option E) j j' lz spare noXML p p', concat p = concat p' ->
  match decode_reader fin j lz spare noXML p, decode_reader fin j' lz spare noXML p' with
  | OK (RXml sg rest, ws, st), OK (RXml sg' rest', ws', st') => sg = sg' /\ concat rest = concat rest' /\ ws = ws' /\ st = st'
  | OK (RModel f, ws, st), OK (RModel f', ws', st') => f = f' /\ ws = ws' /\ st = st'
  | Err (e, ws, st), Err (e', ws', st') => e = e' /\ ws = ws' /\ st = st'
  | Panic, Panic => True
  | Hang, Hang => True
  | _, _ => False
  end.
Proof. intros E fin j j' lz spare noXML p p' H. exact (decodeR_sim2 fin j j' lz (dec_step spare) noXML p p' H). Qed.
(** An error of the reader is never taken for the end of the file: the decoder
    returns it, or an error it found before, or it has found XML and hands the
    reader on. *)
Theorem C79_not_lost : forall E (x : E) j lz spare noXML p,
  match decode_reader (Some x) j lz spare noXML p with
  | OK (RModel _, _, _) => False
  | Err (RdErr _ (RErr EEOF), _, _) => False
  | Err (RdErr _ (RErr EUnexpectedEOF), _, _) => False
  | _ => True
  end.
Proof.
  intros E x j lz spare noXML p. pose proof (C79_decode (Some x) j lz spare noXML p) as A.
  destruct (decode lz spare noXML (concat p)) as [[[[y|f] ws] st]|[[e ws] st]| |]; cbn [same] in A.
  - destruct A as (l & -> & _). exact I.
  - rewrite A. exact I.
  - destruct A as (o & -> & _). unfold conv. destruct e; exact I.
  - rewrite A. exact I.
  - rewrite A. exact I.
Qed.

(** A file in pieces of any size - here of three bytes -, and one cut off at
    every place by an error: the error is returned each time, with the number
    of bytes before it. *)
Fixpoint cut (fuel k : nat) (b : bytes) : pieces :=
  match fuel, b with
  | O, _ | _, [] => []
  | S fuel, _ => firstn k b :: cut fuel k (skipn k b)
  end.
Definition c79_file : bytes :=
  match encode PropFile.toy_lz false false (FModel 0 0 0 [Chunk false (PUnknown 7 (str "hello")); Chunk false (PEnd endContent)] (str "tail") []) with
  | OK (_, b) => b
  | _ => []
  end.
Example C79_example :
  length c79_file = 82 /\
  (exists f, decode_reader (None : option nat) true PropFile.toy_lz (fun _ => 0) false (cut 100 3 c79_file) = OK (RModel f, [WUnknownSig 0 7], Stats false 0 0 0 2 [7%N; sigEND]) /\
    fm_trailing f = str "tail") /\
  (forall n, In n (seq 0 83) -> exists ws st,
    decode_reader (Some 5) false PropFile.toy_lz (fun _ => 0) false (cut 100 3 (firstn n c79_file)) = Err (RdErr n (RIO 5), ws, st)).
Proof.
  split; [vm_compute; reflexivity|]. split.
  - eexists. split; vm_compute; reflexivity.
  - intros n Hn. repeat (destruct Hn as [<-|Hn]; [do 2 eexists; vm_compute; reflexivity|]). destruct Hn.
Qed.
