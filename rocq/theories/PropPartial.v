(** PropPartial.v - C95: what is kept of a chunk that breaks off is a beginning
    of the chunk. *)
From Verif Require Import Base RbxlValues RbxlArrays RbxlValuesProofs RbxlArraysProofs RbxlModel RbxlModelProofs RbxlFile RbxlFileProofs SpecValues SpecArrays SpecModel SpecFile
  RbxlDump RbxlPartial SpecDumpLayout SpecPartial DumpFile PropDecode.

(** ** More bytes do not change what was read *)
Lemma firstn_more {A} n (b x : list A) : n <= length b -> firstn n (b ++ x) = firstn n b.
Proof. intros H. rewrite firstn_app. replace (n - length b) with 0 by lia. apply app_nil_r. Qed.
Lemma skipn_more {A} n (b x : list A) : n <= length b -> skipn n (b ++ x) = skipn n b ++ x.
Proof. intros H. rewrite skipn_app. replace (n - length b) with 0 by lia. reflexivity. Qed.
Lemma rBytes_more n b w r x : rBytes n b = OK (w, r) -> rBytes n (b ++ x) = OK (w, r ++ x).
Proof.
  destruct (rBytes_case n b) as [[e E]|(w' & r' & E & -> & L)]; rewrite E; [discriminate|]. intros H. injection H as <- <-.
  rewrite <- app_assoc. now apply rBytes_app.
Qed.
Lemma rNum_more k b w r x : rNum k b = OK (w, r) -> rNum k (b ++ x) = OK (w, r ++ x).
Proof. unfold rNum. intros H. inv_bind H. rewrite (rBytes_more _ _ _ _ x E). cbn [obind]. now injection H as <- <-. Qed.
Lemma rI32_more b w r x : rI32 b = OK (w, r) -> rI32 (b ++ x) = OK (w, r ++ x).
Proof. unfold rI32. intros H. inv_bind H. rewrite (rNum_more _ _ _ _ x E). cbn [obind]. now injection H as <- <-. Qed.
Lemma readString_more b w r x : readString b = OK (w, r) -> readString (b ++ x) = OK (w, r ++ x).
Proof. unfold readString. intros H. inv_bind H. rewrite (rNum_more _ _ _ _ x E). cbn [obind]. now apply rBytes_more. Qed.
Lemma read_ids_more n b w r x : read_ids n b = OK (w, r) -> read_ids n (b ++ x) = OK (w, r ++ x).
Proof.
  unfold read_ids. destruct (n =? 0)%N; [intros H; now injection H as <- <-|]. intros H. inv_bind H. rewrite (rBytes_more _ _ _ _ x E). cbn [obind].
  unfold rAdd in *. destruct (refArrayFromBytes _ _); try discriminate. now injection H as <- <-.
Qed.


(** ** Columns *)
Lemma map_repeat {A B} (f : A -> B) a n : map f (repeat a n) = repeat (f a) n.
Proof. induction n as [|n IH]; [reflexivity|]. cbn [repeat map]. now rewrite IH. Qed.
Lemma in_seq_facts t : in_sequence t -> interleaved t = false /\ t <> tOptional /\ zero_value t = zero_of t /\
  (forall spare n b, arr_from1 spare t n b = elems_from t n 0 b) /\ (forall spare n b, partial_arr1 spare t n b = partial_elems t n b).
Proof. intros Ht. cbn [in_sequence In] in Ht. repeat (destruct Ht as [<-|Ht]; [repeat split; discriminate|]). destruct Ht. Qed.
Lemma elems_more t : in_sequence t -> forall n i j b vs m x, elems_from t n i b = OK (vs, m) -> elems_from t n j (b ++ x) = OK (vs, m).
Proof.
  intros Ht. induction n as [|n IH]; intros i j b vs m x H; [exact H|]. cbn [elems_from] in *.
  destruct (from_bytes t b) as [[v nn]|?| |] eqn:E; try discriminate H. rewrite (from_bytes_extend t b x v nn E), app_length.
  destruct (length b <? nn)%nat eqn:L; [discriminate|]. destruct (length b + _ <? nn)%nat eqn:L'; [lia|].
  rewrite skipn_more by lia. inv_bind H. now rewrite (IH (S i) (S j) _ _ _ x E0).
Qed.
Lemma partial_elems_begun t : in_sequence t -> forall n i b x vs m, elems_from t n i (b ++ x) = OK (vs, m) ->
  exists k, partial_elems t n b = filled k (zero_of t) vs.
Proof.
  intros Ht. destruct (in_seq_facts t Ht) as (_ & Ho & Hz & _). induction n as [|n IH]; intros i b x vs m H; [cbn in H; injection H as <- _; now exists 0|].
  destruct (elems_from_total t (S n) Ho i (b ++ x)) as [[e Q]|(vs' & m' & Q & L & _)]; [congruence|]. rewrite H in Q. injection Q as <- <-.
  cbn [elems_from partial_elems] in *. destruct (from_bytes_total t b Ho) as [[e ->]|(v & nn & E & G)].
  - exists 0. unfold filled. cbn [firstn app]. now rewrite L, Nat.sub_0_r, Hz.
  - rewrite E. rewrite (from_bytes_extend t b x v nn E), app_length in H. destruct (length b + _ <? nn)%nat eqn:L'; [discriminate|].
    inv_bind H. rewrite skipn_more in E0 by (destruct G as (_ & _ & _ & _ & G & _); lia). injection H as <- _. destruct (IH _ _ _ _ _ E0) as [k ->].
    exists (S k). reflexivity.
Qed.
Lemma tafb_type spare spare' n : forall b x a m a' m', typeArrayFromBytes spare b n = OK (a, m) -> typeArrayFromBytes spare' (b ++ x) n = OK (a', m') ->
  column_type a = column_type a'.
Proof.
  induction b as [|tb rest IH]; intros x a m a' m' H H'; [discriminate|]. cbn [app typeArrayFromBytes] in *.
  destruct (tid_of_byte tb) as [t|]; [|discriminate].
  assert (Hp : forall t, (' (vs, nn) <- arr_from1 spare t n rest;; OK (ARR t vs, zb + nn)) = OK (a, m) ->
    (' (vs, nn) <- arr_from1 spare' t n (rest ++ x);; OK (ARR t vs, zb + nn)) = OK (a', m') -> column_type a = column_type a').
  { intros t' Q Q'. inv_bind Q. inv_bind Q'. injection Q as <- _. injection Q' as <- _. reflexivity. }
  destruct t; try (now apply (Hp _ H H')). inv_bind H. inv_bind H'. apply (IH _ _ _ _ _ E) in E0.
  destruct (length rest <? r)%nat; [discriminate|]. destruct (length (rest ++ x) <? r0)%nat; [discriminate|].
  destruct (skipn r _) as [|pb q]; [discriminate|]. destruct (tid_of_byte pb) as [[]|]; try discriminate.
  destruct (skipn r0 _) as [|pb' q']; [discriminate|]. destruct (tid_of_byte pb') as [[]|]; try discriminate.
  inv_bind H. inv_bind H'. injection H as <- _. injection H' as <- _. exact E0.
Qed.
Lemma after_seq t : in_sequence t -> forall a, column_type a = Some t -> forall b, array_after a b = b.
Proof.
  intros Ht. fix IH 1. intros a Ha b. destruct b as [|tb r]; [now destruct a|]. destruct a as [t' vs|[a|] ps]; cbn [array_after column_type] in *.
  - injection Ha as ->. now rewrite (proj1 (in_seq_facts t Ht)).
  - now rewrite (IH a Ha).
  - discriminate.
Qed.
Lemma tafb_seq spare t : forall rest n b, tid_of_byte b = Some t -> in_sequence t ->
  typeArrayFromBytes spare (b :: rest) n = (' (vs, nn) <- elems_from t n 0 rest ;; OK (ARR t vs, zb + nn)).
Proof.
  intros rest n b Hb Ht. cbn [typeArrayFromBytes]. rewrite Hb. cbn [in_sequence In] in Ht. repeat (destruct Ht as [<-|Ht]; [reflexivity|]). destruct Ht.
Qed.
Lemma tafb_more spare spare' n t : in_sequence t -> forall b x a m, typeArrayFromBytes spare b n = OK (a, m) -> column_type a = Some t ->
  typeArrayFromBytes spare' (b ++ x) n = OK (a, m).
Proof.
  intros Ht. induction b as [|tb rest IH]; intros x a m H Ha; [discriminate|]. cbn [app].
  destruct (tid_of_byte tb) as [t'|] eqn:Et; [|cbn [typeArrayFromBytes] in H; rewrite Et in H; discriminate].
  destruct (tid_eqb t' tOptional) eqn:Eo.
  - assert (t' = tOptional) as -> by (destruct t'; try discriminate; reflexivity). cbn [typeArrayFromBytes] in *. rewrite Et in *. inv_bind H.
    destruct (length rest <? r)%nat eqn:L; [discriminate|].
    assert (Hx : column_type x0 = Some t).
    { destruct (skipn r _) as [|pb q]; [discriminate|]. destruct (tid_of_byte pb) as [[]|]; try discriminate. inv_bind H. injection H as <- _. exact Ha. }
    rewrite (IH x _ _ E Hx). cbn [obind]. rewrite app_length. destruct (length rest + _ <? r)%nat eqn:L'; [lia|].
    rewrite (after_seq t Ht _ Hx) in *. rewrite skipn_more by lia. destruct (skipn r rest) as [|pb q]; [discriminate|]. cbn [app].
    destruct (tid_of_byte pb) as [[]|]; try discriminate. inv_bind H. cbn [arr_from1 interleaved obind] in *.
    now rewrite (elems_more tBool ltac:(cbn; auto) _ _ 0 _ _ _ x E0).
  - assert (t' = t) as ->.
    { cbn [typeArrayFromBytes] in H. rewrite Et in H. destruct t'; try discriminate Eo; inv_bind H; injection H as <- _; now injection Ha as <-. }
    rewrite (tafb_seq spare t) in H by assumption. rewrite (tafb_seq spare' t) by assumption. inv_bind H. now rewrite (elems_more t Ht _ _ 0 _ _ _ x E).
Qed.
Lemma column_begun spare spare' n t : in_sequence t -> forall b x a m, typeArrayFromBytes spare' (b ++ x) n = OK (a, m) -> column_type a = Some t ->
  begun_column a (partial_array spare b n).
Proof.
  intros Ht. induction b as [|tb rest IH]; intros x a m H Ha; [constructor|]. cbn [app] in H.
  destruct (tid_of_byte tb) as [t'|] eqn:Et; [|cbn [typeArrayFromBytes] in H; rewrite Et in H; discriminate].
  destruct (tid_eqb t' tOptional) eqn:Eo.
  - assert (t' = tOptional) as -> by (destruct t'; try discriminate; reflexivity). cbn [typeArrayFromBytes partial_array] in *. rewrite Et in *. inv_bind H.
    destruct (length (rest ++ x) <? r)%nat eqn:L; [discriminate|].
    destruct (skipn r (array_after x0 (rest ++ x))) as [|pb q] eqn:Eq; [discriminate|]. destruct (tid_of_byte pb) as [[]|] eqn:Ep; try discriminate.
    inv_bind H. injection H as <- _. cbn [column_type] in Ha. cbn [arr_from1 interleaved obind] in E0.
    destruct (elems_from_total tBool n ltac:(discriminate) 0 q) as [[e Q]|(ps & m' & Q & Lp & _)]; [congruence|]. rewrite E0 in Q. injection Q as <- <-.
    destruct (typeArrayFromBytes spare rest n) as [[vals nn]|e| |] eqn:E1.
    2-4: replace (repeat false n) with (repeat false (length (map bool_of x1))) by (now rewrite map_length, Lp); constructor; now apply (IH x _ r).
    + assert (Hv : column_type vals = Some t) by (rewrite <- Ha; exact (tafb_type _ _ _ _ _ _ _ _ _ E1 E)).
      pose proof (tafb_more spare spare' n t Ht _ x _ _ E1 Hv) as E2. rewrite E in E2. injection E2 as <- <-.
      destruct (typeArrayFromBytes_total spare n rest) as [[e Q]|[(v & m' & Q & _ & _ & Ln)|[Q _]]]; rewrite E1 in Q; try discriminate Q. injection Q as <- <-.
      rewrite (after_seq t Ht _ Hv) in *. rewrite skipn_more in Eq by exact Ln. destruct (skipn r rest) as [|pb' r'] eqn:Er.
      * replace (repeat false n) with (filled 0 false (map bool_of x1)); [constructor|]. unfold filled. cbn [firstn app]. now rewrite map_length, Lp, Nat.sub_0_r.
      * cbn [app] in Eq. injection Eq as -> <-. rewrite Ep. cbn [partial_arr1 interleaved].
        destruct (partial_elems_begun tBool ltac:(cbn; auto) n 0 r' x _ _ E0) as [k ->].
        replace (map bool_of (filled k (zero_of tBool) x1)) with (filled k false (map bool_of x1)); [constructor|].
        unfold filled. rewrite map_app, map_repeat, firstn_map, map_length. reflexivity.
  - assert (t' = t) as ->.
    { cbn [typeArrayFromBytes] in H. rewrite Et in H. destruct t'; try discriminate Eo; inv_bind H; injection H as <- _; now injection Ha as <-. }
    rewrite (tafb_seq spare' t) in H by assumption. inv_bind H. injection H as <- _.
    assert (Hp : partial_array spare (tb :: rest) n = Some (ARR t (partial_elems t n rest))).
    { rewrite <- (proj2 (proj2 (proj2 (proj2 (in_seq_facts t Ht)))) spare). cbn [partial_array]. rewrite Et. destruct t; try discriminate Eo; reflexivity. }
    rewrite Hp. destruct (partial_elems_begun t Ht n 0 rest x _ _ E) as [k ->]. constructor.
Qed.

(** ** Chunks *)
Lemma firstn_repeat {A} (a : A) : forall k n, k <= n -> firstn k (repeat a n) = repeat a k.
Proof. induction k as [|k IH]; intros [|n] H; try lia; [reflexivity..|]. cbn [repeat firstn]. now rewrite IH by lia. Qed.
Lemma part_read_filled n b x w r : rBytes n (b ++ x) = OK (w, r) -> length b < N.to_nat n -> part_read (N.to_nat n) b = filled (length b) x00 w.
Proof.
  destruct (rBytes_case n (b ++ x)) as [[e E]|(w' & r' & E & Ew & L)]; rewrite E; [discriminate|]. intros H Hl. injection H as <- <-. unfold part_read, filled.
  rewrite firstn_app, firstn_all2 by lia. f_equal.
  - apply (f_equal (firstn (length b))) in Ew. rewrite firstn_app_exact in Ew by reflexivity. rewrite firstn_app in Ew. replace (length b - length w') with 0 in Ew by lia.
    now rewrite app_nil_r in Ew.
  - rewrite firstn_repeat by lia. f_equal. lia.
Qed.
Lemma part_read_self n b x w r : rBytes n b = OK (w, r) -> rBytes n (b ++ x) = OK (w, r ++ x) /\ w = filled (length w) x00 w.
Proof. intros H. split; [now apply rBytes_more|]. unfold filled. now rewrite firstn_all, Nat.sub_diag, app_nil_r. Qed.
Lemma begun_zero {A} (part : A -> A -> Prop) (zero : A) y l : part y zero -> begun_list part zero (y :: l) (repeat zero (S (length l))).
Proof. intros H. right. exists 0, y, zero. split; [reflexivity|]. split; [exact H|]. cbn [firstn app length repeat]. now rewrite Nat.sub_0_r || (do 2 f_equal; lia). Qed.
Lemma begun_first {A} (part : A -> A -> Prop) (zero y a : A) l : part y a -> begun_list part zero (y :: l) (a :: repeat zero (length l)).
Proof. intros H. right. exists 0, y, a. split; [reflexivity|]. split; [exact H|]. cbn [firstn app length]. do 2 f_equal. lia. Qed.
Lemma begun_next {A} (part : A -> A -> Prop) (zero y : A) l s : s <> [] -> begun_list part zero l s -> begun_list part zero (y :: l) (y :: s).
Proof.
  intros Hs [->|(m & z & a & H1 & H2 & ->)]; [congruence|]. right. exists (S m), z, a. split; [exact H1|]. split; [exact H2|]. reflexivity.
Qed.
Lemma read_pairs_len n : forall b l r, read_pairs n b = OK (l, r) -> length l = n.
Proof. induction n as [|n IH]; intros b l r H; [now injection H as <- _|]. cbn [read_pairs] in H. inv_bind H. inv_bind H. inv_bind H. injection H as <- _. cbn [length]. f_equal. eauto. Qed.
Lemma read_shared_len n : forall b l r, read_shared n b = OK (l, r) -> length l = n.
Proof. induction n as [|n IH]; intros b l r H; [now injection H as <- _|]. cbn [read_shared] in H. inv_bind H. inv_bind H. inv_bind H. injection H as <- _. cbn [length]. f_equal. eauto. Qed.
Definition failed {A B} (o : outcome A B) : Prop := forall y, o <> OK y.
Lemma partial_pairs_nil n b : failed (read_pairs n b) -> partial_pairs n b <> [].
Proof. destruct n as [|n]; intros H E; [now apply (H ([], b))|]. cbn [partial_pairs] in E. destruct (readString b) as [[k r]|?| |]; try discriminate E. destruct (readString r) as [[v q]|?| |]; discriminate E. Qed.
Lemma partial_shared_nil n b : failed (read_shared n b) -> partial_shared n b <> [].
Proof. destruct n as [|n]; intros H E; [now apply (H ([], b))|]. cbn [partial_shared] in E. destruct (rBytes 16 b) as [[k r]|?| |]; try discriminate E. destruct (readString r) as [[v q]|?| |]; discriminate E. Qed.
Lemma pairs_begun : forall n b x l r, read_pairs n (b ++ x) = OK (l, r) -> failed (read_pairs n b) -> begun_list begun_pair ([], []) l (partial_pairs n b).
Proof.
  induction n as [|n IH]; intros b x l r H Hf; [exfalso; now apply (Hf ([], b))|]. pose proof (read_pairs_len _ _ _ _ H) as L.
  cbn [read_pairs partial_pairs] in *. destruct (readString b) as [[k b1]|e| |] eqn:E1.
  2-4: destruct l as [|y l]; [discriminate L|]; injection L as <-; apply begun_zero; split; auto.
  rewrite (readString_more _ _ _ x E1) in H. cbn [obind] in *. destruct (readString b1) as [[v b2]|e| |] eqn:E2.
  2-4: apply bind_OK in H as [[v' r'] [Ev H]]; inv_bind H; injection H as <- _; injection L as <-; apply begun_first; split; auto.
  rewrite (readString_more _ _ _ x E2) in H. cbn [obind] in *. inv_bind H. injection H as <- _.
  assert (Hf' : failed (read_pairs n b2)) by (intros [l' r'] Q; rewrite Q in Hf; now eapply Hf).
  apply begun_next; [now apply partial_pairs_nil|]. now apply (IH _ _ _ _ E).
Qed.
Lemma shared_begun : forall n b x l r, read_shared n (b ++ x) = OK (l, r) -> failed (read_shared n b) -> begun_list begun_hash (repeat x00 16, []) l (partial_shared n b).
Proof.
  induction n as [|n IH]; intros b x l r H Hf; [exfalso; now apply (Hf ([], b))|]. pose proof (read_shared_len _ _ _ _ H) as L.
  cbn [read_shared partial_shared] in *. destruct (rBytes_case 16 b) as [[e E1]|(h & b1 & E1 & Eb & Lh)]; rewrite E1 in *; cbn [obind] in *.
  - inv_bind H. inv_bind H. inv_bind H. injection H as <- _. injection L as <-. apply begun_first. split; [reflexivity|]. exists (length b).
    apply (part_read_filled 16 b x x0 r0 E). unfold rBytes in E1. destruct (N.of_nat (length b) <? 16)%N eqn:Q; [change (N.to_nat 16) with 16; lia|discriminate].
  - destruct (part_read_self _ _ x _ _ E1) as [E1' Eh]. rewrite E1' in H. cbn [obind] in H. destruct (readString b1) as [[v b2]|e| |] eqn:E2.
    2-4: apply bind_OK in H as [[v' r'] [Ev H]]; inv_bind H; injection H as <- _; injection L as <-; apply begun_first; split; [reflexivity|]; cbn [fst]; eauto.
    rewrite (readString_more _ _ _ x E2) in H. cbn [obind] in *. inv_bind H. injection H as <- _.
    assert (Hf' : failed (read_shared n b2)) by (intros [l' r'] Q; rewrite Q in Hf; now eapply Hf).
    apply begun_next; [now apply partial_shared_nil|]. now apply (IH _ _ _ _ E).
Qed.
(** A reader either fails, or goes on with the same value. *)
Ltac reader H Hf r m x := let E := fresh "E" in let v := fresh "v" in let q := fresh "q" in
  destruct r as [[v q]|?| |] eqn:E; [rewrite (m _ _ _ x E) in H; cbn [obind] in H, Hf; cbn beta iota in H, Hf|..].
Lemma payload_begun spare g sg b x p r : read_payload spare g sg (b ++ x) = OK (p, r) -> failed (read_payload spare g sg b) ->
  begun p (partial_payload spare g sg b).
Proof.
  unfold read_payload, partial_payload. intros H Hf.
  destruct (sg =? sigMETA)%N; [|destruct (sg =? sigSSTR)%N; [|destruct (sg =? sigINST)%N; [|destruct (sg =? sigPROP)%N; [|destruct (sg =? sigPRNT)%N]]]].
  - unfold read_meta, partial_meta in *. reader H Hf (rNum 4 b) (rNum_more 4) x.
    2-4: inv_bind H; inv_bind H; injection H as <- _; constructor; now left.
    inv_bind H. injection H as <- _. constructor. apply (pairs_begun _ _ _ _ _ E0). intros [l' r'] Q. rewrite Q in Hf. now eapply Hf.
  - unfold read_sstr, partial_sstr in *. reader H Hf (rNum 4 b) (rNum_more 4) x.
    2-4: inv_bind H; inv_bind H; inv_bind H; injection H as <- _; constructor.
    reader H Hf (rNum 4 q) (rNum_more 4) x.
    2-4: inv_bind H; inv_bind H; injection H as <- _; constructor; now left.
    inv_bind H. injection H as <- _. constructor. apply (shared_begun _ _ _ _ _ E1). intros [l' r'] Q. rewrite Q in Hf. now eapply Hf.
  - unfold read_inst, partial_inst in *. reader H Hf (rI32 b) rI32_more x.
    2-4: do 6 inv_bind H; injection H as <- _; constructor.
    reader H Hf (readString q) readString_more x.
    2-4: do 5 inv_bind H; injection H as <- _; constructor.
    reader H Hf (rNum 1 q0) (rNum_more 1) x.
    2-4: do 4 inv_bind H; injection H as <- _; constructor.
    cbv zeta in *. reader H Hf (rNum 4 q1) (rNum_more 4) x.
    2-4: do 3 inv_bind H; injection H as <- _; constructor.
    reader H Hf (read_ids v2 q2) (read_ids_more v2) x.
    2-4: inv_bind H; inv_bind H; injection H as <- _; rewrite <- (read_ids_length _ _ _ _ E4); constructor.
    inv_bind H. injection H as <- _. destruct (negb _); [|exfalso; now eapply Hf].
    destruct (rBytes_case v2 q3) as [[e Q]|(w & r' & Q & _)]; [|exfalso; rewrite Q in Hf; now eapply Hf].
    rewrite (part_read_filled _ _ _ _ _ E4); [constructor|]. unfold rBytes in Q. destruct (N.of_nat (length q3) <? v2)%N eqn:K; [lia|discriminate].
  - unfold read_prop, partial_prop in *. reader H Hf (rI32 b) rI32_more x.
    2-4: inv_bind H; destruct (g _); [|discriminate H]; inv_bind H; destruct r1; [injection H as <- _; constructor|];
      destruct (typeArrayFromBytes _ _ _) as [[? ?]|?| |]; try discriminate H; injection H as <- _; constructor.
    destruct (g v) as [n|] eqn:Eg; [|discriminate H]. reader H Hf (readString q) readString_more x.
    2-4: inv_bind H; destruct r0; [injection H as <- _; constructor|];
      destruct (typeArrayFromBytes _ _ _) as [[? ?]|?| |]; try discriminate H; injection H as <- _; constructor.
    destruct q0 as [|c q0]; [exfalso; now eapply Hf|]. cbn [app] in H.
    destruct (typeArrayFromBytes _ (c :: q0 ++ x) n) as [[a m]|?| |] eqn:Ea; try discriminate H. injection H as <- _. constructor.
    intros t Ha Ht. exact (column_begun _ _ n t Ht (c :: q0) x a m Ea Ha).
  - unfold read_prnt, partial_prnt in *. reader H Hf (rNum 1 b) (rNum_more 1) x.
    2-4: do 4 inv_bind H; injection H as <- _; constructor.
    reader H Hf (rNum 4 q) (rNum_more 4) x.
    2-4: do 3 inv_bind H; injection H as <- _; constructor.
    reader H Hf (read_ids v0 q0) (read_ids_more v0) x.
    2-4: inv_bind H; inv_bind H; injection H as <- _; rewrite <- (read_ids_length _ _ _ _ E2); constructor.
    inv_bind H. injection H as <- _. rewrite <- (read_ids_length _ _ _ _ E2). constructor.
  - exfalso. destruct (sg =? sigEND)%N; now eapply Hf.
Qed.

(** ** Files *)
Lemma extend_class g p id : extend g p id = match last_class [p] id with Some c => Some (fst c) | None => g id end.
Proof. destruct p; try reflexivity. cbn [extend last_class]. now match goal with |- context [(?x =? id)%Z] => destruct (x =? id)%Z end. Qed.
Lemma last_class_cons p l id : last_class (p :: l) id = match last_class l id with Some c => Some c | None => last_class [p] id end.
Proof. cbn [last_class]. now destruct (last_class l id). Qed.
Lemma steps_nth spare : forall g k rcs cs ws, steps spare g k rcs cs ws -> forall i c, nth_error cs i = Some c ->
  exists rc w g', step_out spare g' (k + i) rc = Some (ch_payload c, w) /\
    forall id, g' id = match last_class (map ch_payload (firstn i cs)) id with Some c => Some (fst c) | None => g id end.
Proof.
  induction 1 as [g k rc p w H1 H2|g k rc rcs p w cs ws H1 H2 H3 IH]; intros i c Hi.
  - destruct i as [|i]; [|destruct i; discriminate]. injection Hi as <-. exists rc, w, g. rewrite Nat.add_0_r. auto.
  - destruct i as [|i]; [injection Hi as <-; exists rc, w, g; rewrite Nat.add_0_r; auto|]. destruct (IH i c Hi) as (rc' & w' & g' & E & Eg).
    exists rc', w', g'. rewrite Nat.add_succ_r. split; [exact E|]. intros id. rewrite Eg. cbn [firstn map ch_payload]. rewrite last_class_cons, extend_class.
    now destruct (last_class (map _ _) id).
Qed.
Lemma group_get_app g h id : group_get (g ++ h) id = match group_get g id with Some v => Some v | None => group_get h id end.
Proof. induction g as [|[k v] g IH]; [reflexivity|]. cbn [app group_get]. now destruct (k =? id)%Z. Qed.
Lemma groups_before_declared : forall cs k i id, group_len (groups_before cs k i) id = option_map fst (last_class (map ch_payload (firstn i cs)) id).
Proof.
  unfold group_len. induction cs as [|c cs IH]; intros k i id; [now destruct i|]. destruct i as [|i]; [reflexivity|]. cbn [groups_before firstn map].
  rewrite group_get_app, last_class_cons. specialize (IH (S k) i id). destruct (last_class (map _ _) id) as [n|] eqn:El.
  - destruct (group_get (groups_before cs (S k) i) id) as [[u v]|]; [exact IH|discriminate IH].
  - destruct (group_get (groups_before cs (S k) i) id) as [[u v]|]; [discriminate IH|].
    destruct (ch_payload c); try reflexivity. cbn [group_get last_class]. now match goal with |- context [(?x =? id)%Z] => destruct (x =? id)%Z end.
Qed.
Lemma read_ext spare g g' sg b : (forall id, g id = g' id) -> read_payload spare g sg b = read_payload spare g' sg b.
Proof. intros H. unfold read_payload, read_prop. destruct (rI32 b) as [[id q]|?| |]; cbn [obind]; rewrite ?H; reflexivity. Qed.

(** ** C95 *)
(** A chunk is kept as errored with the error that reading its content gives,
    with the classes declared before it, and the offset at which it occurs. *)
Theorem C95_errored : forall lz spare noXML input f ws st i z sg offset cause content,
  decode lz spare noXML input = OK (DModel f, ws, st) -> nth_error (fm_chunks f) i = Some (Chunk z (PErrored sg offset cause content)) ->
  exists rest, read_payload spare (declared_before f i) sg content = Err (cause, rest) /\ offset = length content - length rest.
Proof.
  intros lz spare noXML input f ws st i z sg offset cause content Hd Hi.
  destruct (decode_model_inv _ _ _ _ _ _ _ Hd) as (cc & ic & rsv & fs & rcs & cs & w & g & Eg & _ & _ & _ & _ & Hf & Hs & _ & Ef & _).
  rewrite Ef in Hi |- *. cbn [fm_chunks] in Hi. destruct (steps_nth _ _ _ _ _ _ Hs _ _ Hi) as (rc & w' & g' & E & Eg'). cbn [ch_payload] in E.
  unfold step_out in E. destruct (read_payload spare g' (raw_sig rc) (raw_payload rc)) as [[p r]|[e r]| |] eqn:Er; try discriminate E.
  - injection E as -> _. apply read_payload_sig in Er as (_ & [] & _).
  - injection E as <- <- <- <- _. exists r. split; [|reflexivity]. rewrite <- Er. apply read_ext. intros id. unfold declared_before. cbn [fm_chunks].
    rewrite Eg'. now destruct (last_class _ id).
Qed.
(** What is kept of a chunk that breaks off is a beginning of every chunk that
    its content could have been completed to. *)
Theorem C95_begun : forall lz spare noXML input f ws st i z sg offset cause content more p rest,
  decode lz spare noXML input = OK (DModel f, ws, st) -> nth_error (fm_chunks f) i = Some (Chunk z (PErrored sg offset cause content)) ->
  read_payload spare (declared_before f i) sg (content ++ more) = OK (p, rest) -> begun p (partial_of spare f i).
Proof.
  intros lz spare noXML input f ws st i z sg offset cause content more p rest Hd Hi Hr.
  destruct (C95_errored _ _ _ _ _ _ _ _ _ _ _ _ _ Hd Hi) as (r & He & _). unfold partial_of. rewrite Hi.
  assert (Hx : forall id, declared_before f i id = group_len (groups_before (fm_chunks f) 0 i) id) by (intros id; symmetry; apply groups_before_declared).
  rewrite (read_ext _ _ _ _ _ Hx) in Hr. rewrite (read_ext _ _ _ _ _ Hx) in He. apply (payload_begun _ _ _ _ _ _ _ Hr). rewrite He. discriminate.
Qed.
(** ** What the bytes of a column give *)
Lemma zero_value_of t : t <> tOptional -> zero_value t = zero_of t.
Proof. destruct t; congruence || reflexivity. Qed.
Lemma partial_elems_longest t : t <> tOptional -> forall n i b, exists k ws m, k <= n /\ elems_from t k i b = OK (ws, m) /\
  partial_elems t n b = ws ++ repeat (zero_of t) (n - k) /\ (k = n \/ failed (elems_from t (S k) i b)).
Proof.
  intros Ht. induction n as [|n IH]; intros i b; [exists 0, [], 0; repeat split; auto|]. cbn [partial_elems].
  destruct (from_bytes_total t b Ht) as [[e E]|(v & nn & E & G)]; rewrite E.
  - exists 0, [], 0. split; [lia|]. split; [reflexivity|]. split; [now rewrite zero_value_of|]. right. intros y. cbn [elems_from]. rewrite E. discriminate.
  - destruct (IH (S i) (skipn nn b)) as (k & ws & m & Lk & E1 & E2 & E3). exists (S k), (v :: ws), (nn + m). split; [lia|].
    assert (L : (length b <? nn) = false) by (destruct G as (_ & _ & _ & _ & G & _); destruct (length b <? nn) eqn:Q; [lia|reflexivity]).
    split; [cbn [elems_from]; now rewrite E, L, E1|]. split; [now rewrite E2|]. destruct E3 as [->|E3]; [now left|right].
    intros y. cbn [elems_from] in *. rewrite E, L. intros Q. apply bind_OK in Q as [[vs m'] [Q _]]. now apply (E3 (vs, m')).
Qed.
Lemma partial_refs_longest : forall n i prev b, exists k ws m, k <= n /\ refs_from k i prev b = OK (ws, m) /\
  partial_refs n i prev b = ws ++ repeat (zero_of tReference) (n - k) /\ (k = n \/ failed (refs_from (S k) i prev b)).
Proof.
  induction n as [|n IH]; intros i prev b; [exists 0, [], 0; repeat split; auto|]. cbn [partial_refs].
  destruct (from_ref_case b) as [[e E]|(v & E & L & _)]; rewrite E.
  - exists 0, [], 0. split; [lia|]. split; [reflexivity|]. split; [reflexivity|]. right. intros y. cbn [refs_from]. rewrite E. discriminate.
  - set (v' := if (i =? 0)%nat then v else wrapZ 32 (v + prev)). cbv zeta. destruct (IH (S i) v' (skipn 4 b)) as (k & ws & m & Lk & E1 & E2 & E3).
    exists (S k), (VReference v' :: ws), (4 + m). split; [lia|].
    assert (Lb : (length b <? 4) = false) by (destruct (length b <? 4) eqn:Q; [lia|reflexivity]).
    split; [cbn [refs_from]; rewrite E, Lb; cbv zeta; fold v'; now rewrite E1|]. split; [now rewrite E2|]. destruct E3 as [->|E3]; [now left|right].
    intros y. cbn [refs_from] in *. rewrite E, Lb. cbv zeta. fold v'. intros Q. apply bind_OK in Q as [[vs m'] [Q _]]. now apply (E3 (vs, m')).
Qed.
Lemma tafb_plain spare t n tb rest : tid_of_byte tb = Some t -> t <> tOptional ->
  typeArrayFromBytes spare (tb :: rest) n = (' (vs, nn) <- arr_from1 spare t n rest ;; OK (ARR t vs, zb + nn)) /\
  partial_array spare (tb :: rest) n = Some (ARR t (partial_arr1 spare t n rest)).
Proof. intros Et Ht. cbn [typeArrayFromBytes partial_array]. rewrite Et. destruct t; congruence || (split; reflexivity). Qed.
Lemma arr1_longest spare t n b : t <> tOptional -> ~ is_cframe_type t ->
  (exists k ws m, k <= n /\ arr_from1 spare t k b = OK (ws, m) /\ partial_arr1 spare t n b = ws ++ repeat (zero_of t) (n - k) /\
     (k = n \/ failed (arr_from1 spare t (S k) b))) \/
  ((forall k, failed (arr_from1 spare t k b)) /\ partial_arr1 spare t n b = repeat (zero_of t) n).
Proof.
  intros Ho Hc. unfold arr_from1, partial_arr1. destruct (if interleaved t then _ else _) as [b'|e| |]; cbn [obind].
  2-4: right; split; [discriminate|now rewrite zero_value_of].
  left. destruct t; try congruence; try (exfalso; apply Hc; unfold is_cframe_type; auto; fail); first [now apply partial_elems_longest|apply partial_refs_longest].
Qed.
Lemma column_longest spare n b t vs : ~ is_cframe_type t -> partial_array spare b n = Some (ARR t vs) ->
  (exists k ws m, k <= n /\ typeArrayFromBytes spare b k = OK (ARR t ws, m) /\ vs = ws ++ repeat (zero_of t) (n - k) /\
     (k = n \/ failed (typeArrayFromBytes spare b (S k)))) \/
  ((forall k, failed (typeArrayFromBytes spare b k)) /\ vs = repeat (zero_of t) n).
Proof.
  intros Hc H. destruct b as [|tb rest]; [discriminate|].
  destruct (tid_of_byte tb) as [t'|] eqn:Et; [|cbn [partial_array] in H; rewrite Et in H; discriminate].
  assert (Ho : t' <> tOptional).
  { intros ->. cbn [partial_array] in H. rewrite Et in H. destruct (typeArrayFromBytes spare rest n) as [[? ?]|?| |]; discriminate. }
  assert (Hp : forall k, typeArrayFromBytes spare (tb :: rest) k = (' (vs, nn) <- arr_from1 spare t' k rest ;; OK (ARR t' vs, zb + nn))) by (intros k; now apply tafb_plain).
  rewrite (proj2 (tafb_plain spare t' n tb rest Et Ho)) in H. injection H as -> <-.
  destruct (arr1_longest spare t n rest Ho Hc) as [(k & ws & m & L & E1 & E2 & E3)|[E1 E2]]; [left|right].
  - exists k, ws, (zb + m). split; [exact L|]. split; [now rewrite Hp, E1|]. split; [exact E2|]. destruct E3 as [E3|E3]; [now left|right].
    intros y. rewrite Hp. intros Q. apply bind_OK in Q as [y' [Q _]]. now apply (E3 y').
  - split; [|exact E2]. intros k y. rewrite Hp. intros Q. apply bind_OK in Q as [y' [Q _]]. now apply (E1 k y').
Qed.
Lemma rI32_inv b id r : rI32 b = OK (id, r) -> b = le32 (toN 32 id) ++ r.
Proof.
  unfold rI32. destruct (rNum_case 4 b) as [[e E]|(x & q & E & -> & L)]; rewrite E; cbn [obind]; [discriminate|]. intros H. injection H as <- <-.
  change (8 * N.of_nat 4)%N with 32%N in L. now rewrite toN_ofN.
Qed.
Lemma readString_inv b s r : readString b = OK (s, r) -> b = writeString s ++ r.
Proof.
  unfold readString. destruct (rNum_case 4 b) as [[e E]|(x & q & E & -> & L)]; rewrite E; cbn [obind]; [discriminate|].
  destruct (rBytes_case x q) as [[e Q]|(w & q' & Q & -> & Lw)]; rewrite Q; [discriminate|]. intros H. injection H as <- <-.
  unfold writeString, le32. now rewrite Lw, <- app_assoc.
Qed.
(** Whether its bytes are interleaved or not, a column (not of CFrames) that
    breaks off has the values of the longest column that its bytes give, and
    zeros; only zeros if the bytes are not those of any column. *)
Theorem C95_column : forall lz spare noXML input f ws st i z sg offset cause content id name t vs,
  decode lz spare noXML input = OK (DModel f, ws, st) -> nth_error (fm_chunks f) i = Some (Chunk z (PErrored sg offset cause content)) ->
  partial_of spare f i = PProp id name (Some (ARR t vs)) -> ~ is_cframe_type t ->
  exists column n, content = le32 (toN 32 id) ++ writeString name ++ column /\ declared_before f i id = Some n /\ length vs = n /\
    let reads k := typeArrayFromBytes (spare (length column)) column k in
    ((exists k seen m, k <= n /\ reads k = OK (ARR t seen, m) /\ vs = seen ++ repeat (zero_of t) (n - k) /\ forall y, reads (S k) <> OK y) \/
     ((forall k y, reads k <> OK y) /\ vs = repeat (zero_of t) n)).
Proof.
  intros lz spare noXML input f ws st i z sg offset cause content id name t vs Hd Hi Hp Hc.
  destruct (C95_errored _ _ _ _ _ _ _ _ _ _ _ _ _ Hd Hi) as (r & He & _).
  assert (Hx : forall id, declared_before f i id = group_len (groups_before (fm_chunks f) 0 i) id) by (intros id'; symmetry; apply groups_before_declared).
  rewrite (read_ext _ _ _ _ _ Hx) in He. unfold partial_of in Hp. rewrite Hi in Hp. unfold partial_payload in Hp. unfold read_payload in He.
  destruct (sg =? sigMETA)%N; [unfold partial_meta in Hp; destruct (rNum 4 content) as [[? ?]|?| |]; discriminate Hp|].
  destruct (sg =? sigSSTR)%N.
  { unfold partial_sstr in Hp. destruct (rNum 4 content) as [[? q]|?| |]; try discriminate Hp. destruct (rNum 4 q) as [[? ?]|?| |]; discriminate Hp. }
  destruct (sg =? sigINST)%N.
  { unfold partial_inst in Hp. repeat match type of Hp with context [match ?x with OK _ => _ | _ => _ end] => destruct x as [[? ?]|?| |]; try discriminate Hp end. }
  destruct (sg =? sigPROP)%N.
  2:{ destruct (sg =? sigPRNT)%N; [|discriminate Hp]. unfold partial_prnt in Hp.
      repeat match type of Hp with context [match ?x with OK _ => _ | _ => _ end] => destruct x as [[? ?]|?| |]; try discriminate Hp end. }
  unfold partial_prop in Hp. unfold read_prop in He. destruct (rI32 content) as [[id' b]|?| |] eqn:E1; try discriminate Hp. cbn [obind] in He.
  destruct (group_len (groups_before (fm_chunks f) 0 i) id') as [n|] eqn:Eg; [|discriminate Hp].
  destruct (readString b) as [[name' col]|?| |] eqn:E2; try discriminate Hp. cbn [obind] in He. injection Hp as -> -> Ha.
  exists col, n. rewrite (rI32_inv _ _ _ E1), (readString_inv _ _ _ E2). split; [reflexivity|]. split; [now rewrite Hx|].
  destruct (column_longest _ _ _ _ _ Hc Ha) as [(k & seen & m & L & E3 & E4 & E5)|[E3 E4]].
  - assert (Hk : k <> n).
    { intros ->. destruct col as [|c col]; [discriminate Ha|]. rewrite E3 in He. discriminate He. }
    destruct (typeArrayFromBytes_total (spare (length col)) k col) as [[e Q]|[(a & m' & Q & _ & La & _)|[Q _]]]; rewrite E3 in Q; try discriminate Q.
    injection Q as <- <-. cbn [arr_len] in La. split; [rewrite E4, app_length, repeat_length; lia|]. left. exists k, seen, m. repeat split; auto.
    destruct E5 as [E5|E5]; [congruence|exact E5].
  - split; [rewrite E4; apply repeat_length|]. right. split; [exact E3|exact E4].
Qed.
(** A column of two strings that breaks off inside the second *)
Definition cut_column : bytes := le32 3 ++ le32 1 ++ str "s" ++ x01 :: le32 2 ++ str "ab" ++ le32 3 ++ str "cd".
Definition cut_file : bytes := file_of 1 2 [PInst 3 (str "Part") [7; 8]%Z false []; PUnknown sigPROP cut_column; PPrnt 0 [7; 8]%Z [-1; -1]%Z].
Lemma C95_witness : exists f ws st offset cause,
  decode no_lz (fun _ => 0) true cut_file = OK (DModel f, ws, st) /\
  nth_error (fm_chunks f) 1 = Some (Chunk false (PErrored sigPROP offset cause cut_column)) /\
  read_payload (fun _ => 0) (declared_before f 1) sigPROP (cut_column ++ str "e") =
    OK (PProp 3 (str "s") (Some (ARR tString [VString (str "ab"); VString (str "cde")])), []) /\
  partial_of (fun _ => 0) f 1 = PProp 3 (str "s") (Some (ARR tString [VString (str "ab"); VString []])).
Proof.
  destruct (decode no_lz (fun _ => 0) true cut_file) as [[[[b|f] ws] st]|?| |] eqn:E; [vm_compute in E; discriminate| |vm_compute in E; discriminate..].
  vm_compute in E. injection E as <- <- <-. eexists _, _, _, _, _. split; [reflexivity|]. split; [vm_compute; reflexivity|]. split; vm_compute; reflexivity.
Qed.
(** A column of three integers with the bytes of two *)
Definition short_ints : bytes := le32 3 ++ le32 1 ++ str "i" ++ x03 :: [x00; x00; x00; x00; x00; x00; x02; x04].
Definition short_file : bytes := file_of 1 3 [PInst 3 (str "Part") [7; 8; 9]%Z false []; PUnknown sigPROP short_ints; PPrnt 0 [7; 8; 9]%Z [-1; -1; -1]%Z].
Lemma C95_column_witness : exists f ws st offset cause,
  decode no_lz (fun _ => 0) true short_file = OK (DModel f, ws, st) /\
  nth_error (fm_chunks f) 1 = Some (Chunk false (PErrored sigPROP offset cause short_ints)) /\ ~ is_cframe_type tInt /\
  partial_of (fun _ => 0) f 1 = PProp 3 (str "i") (Some (ARR tInt [VInt 1; VInt 2; VInt 0])).
Proof.
  destruct (decode no_lz (fun _ => 0) true short_file) as [[[[b|f] ws] st]|?| |] eqn:E; [vm_compute in E; discriminate| |vm_compute in E; discriminate..].
  vm_compute in E. injection E as <- <- <-. eexists _, _, _, _, _. split; [reflexivity|]. split; [vm_compute; reflexivity|]. split; [intros [Q|Q]; discriminate|vm_compute; reflexivity].
Qed.
Print Assumptions C95_errored.
Print Assumptions C95_begun.
Print Assumptions C95_column.
