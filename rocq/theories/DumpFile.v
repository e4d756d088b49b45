(** DumpFile.v - proofs about the dump of chunks and of whole files. *)
From Verif Require Import Base RbxlValues RbxlArrays RbxlArraysProofs RbxlModel RbxlModelProofs RbxlFile RbxlFileProofs RbxValues Tree
  RbxlCodec XmlText Json RbxlDump SpecValues SpecArrays SpecModel SpecFile RbxlCodecTree SpecDump DumpProofs DumpQuote DumpValues.

(** ** What decoding makes *)
Definition read_shape (p : payload) : Prop :=
  match p with
  | PInst _ _ ids svc gs => length gs = if svc then length ids else 0
  | PProp _ _ (Some a) => wf_array a
  | PPrnt _ cs ps => length cs = length ps
  | PUnknown sg _ => f32 sg /\ validChunk sg = false
  | _ => True
  end.
Lemma read_ids_length n b ids r : read_ids n b = OK (ids, r) -> length ids = N.to_nat n.
Proof.
  unfold read_ids. destruct (N.eqb_spec n 0) as [->|Hn]; [intros H; injection H as <- _; reflexivity|].
  intros H. inv_bind H. unfold rAdd, refArrayFromBytes in H.
  destruct (arr_from1_total 0 tReference (N.to_nat n) x) as [[e Q]|[(vs & m & Q & L & _)|(_ & E' & _)]]; try discriminate;
    rewrite Q in H; cbn [obind] in H; [discriminate|]. injection H as <- _. now rewrite map_length.
Qed.
Lemma rBytes_length n b x r : rBytes n b = OK (x, r) -> length x = N.to_nat n.
Proof. destruct (rBytes_case n b) as [[e E]|(y & q & E & _ & L)]; rewrite E; [discriminate|]. intros H. injection H as <- <-. lia. Qed.
Lemma step_out_shape spare g i rc p w : f32 (raw_sig rc) -> step_out spare g i rc = Some (p, w) -> read_shape p.
Proof.
  intros Hs H. destruct p as [vs|v vs|id name ids svc gs|id name [a|]|v cs ps|c|sg c|sg off e c]; try exact I.
  2:{ destruct (step_out_prop _ _ _ _ _ _ _ _ H) as (n & _ & K). cbn. now apply (K a). }
  all: revert H; unfold step_out; destruct (read_payload spare g (raw_sig rc) (raw_payload rc)) as [[p r]|[e' r]| |] eqn:E; try discriminate;
    intros H; injection H as -> _; revert E; unfold read_payload;
    (destruct (N.eqb_spec (raw_sig rc) sigMETA) as [Q1|Q1]; [unfold read_meta; intros H; repeat inv_bind H; discriminate|]);
    (destruct (N.eqb_spec (raw_sig rc) sigSSTR) as [Q2|Q2]; [unfold read_sstr; intros H; repeat inv_bind H; discriminate|]).
  - destruct (N.eqb_spec (raw_sig rc) sigINST) as [Q3|Q3].
    + unfold read_inst. intros H. inv_bind H. inv_bind H. inv_bind H. inv_bind H. inv_bind H. inv_bind H.
      injection H as -> -> -> Hsvc -> ->. cbn [read_shape]. rewrite Hsvc in E4. rewrite (read_ids_length _ _ _ _ E3).
      destruct svc; [now apply rBytes_length in E4|]. now injection E4 as <- _.
    + destruct (raw_sig rc =? sigPROP)%N; [unfold read_prop; intros H; inv_bind H; destruct (g x); [|discriminate]; inv_bind H;
        destruct r1; [discriminate|]; destruct (typeArrayFromBytes _ _ _) as [[? ?]|?| |]; discriminate|].
      destruct (raw_sig rc =? sigPRNT)%N; [unfold read_prnt; intros H; repeat inv_bind H; discriminate|].
      destruct (raw_sig rc =? sigEND)%N; discriminate.
  - destruct (raw_sig rc =? sigINST)%N; [unfold read_inst; intros H; repeat inv_bind H; discriminate|].
    destruct (raw_sig rc =? sigPROP)%N; [unfold read_prop; intros H; inv_bind H; destruct (g x); [|discriminate]; inv_bind H;
        destruct r1; [discriminate|]; destruct (typeArrayFromBytes _ _ _) as [[? ?]|?| |]; discriminate|].
    destruct (raw_sig rc =? sigPRNT)%N; [|destruct (raw_sig rc =? sigEND)%N; discriminate].
    unfold read_prnt. intros H. inv_bind H. inv_bind H. inv_bind H. inv_bind H. injection H as -> -> -> ->.
    cbn [read_shape]. now rewrite (read_ids_length _ _ _ _ E1), (read_ids_length _ _ _ _ E2).
  - destruct (N.eqb_spec (raw_sig rc) sigINST) as [Q3|Q3]; [unfold read_inst; intros H; repeat inv_bind H; discriminate|].
    destruct (N.eqb_spec (raw_sig rc) sigPROP) as [Q4|Q4]; [unfold read_prop; intros H; inv_bind H; destruct (g x); [|discriminate]; inv_bind H;
        destruct r1; [discriminate|]; destruct (typeArrayFromBytes _ _ _) as [[? ?]|?| |]; discriminate|].
    destruct (N.eqb_spec (raw_sig rc) sigPRNT) as [Q5|Q5]; [unfold read_prnt; intros H; repeat inv_bind H; discriminate|].
    destruct (N.eqb_spec (raw_sig rc) sigEND) as [Q6|Q6]; [discriminate|]. intros H. injection H as <- _ _. split; [exact Hs|].
    unfold validChunk. cbn [existsb]. apply N.eqb_neq in Q1, Q2, Q3, Q4, Q5, Q6. now rewrite Q1, Q2, Q3, Q4, Q5, Q6.
Qed.
Lemma decode_shapes lz spare noXML input f ws st : decode lz spare noXML input = OK (DModel f, ws, st) ->
  Forall (fun c => read_shape (ch_payload c)) (fm_chunks f).
Proof.
  intros H. destruct (decode_model_inv _ _ _ _ _ _ _ H) as (cc & ic & rsv & fs & rcs & cs & w & g & Eg & _ & _ & _ & _ & Hf & Hs & _ & Ef & _).
  rewrite Ef. cbn [fm_chunks]. clear - Hf Hs. revert fs Hf. induction Hs as [g i rc p w H1 H2|g i rc rcs p w cs ws H1 H2 H3 IH]; intros fs Hf;
    inversion Hf as [|f rc' fs' rcs' G1 G2]; subst; (constructor; [|try constructor; eauto]);
    (eapply step_out_shape; [|exact H1]); destruct G1 as [[[K _] [-> _]] _]; exact K.
Qed.

(** ** Totality of the dump of arrays *)
Lemma write_loop_ok (f : nat -> res bytes) : forall n i, (forall k, i <= k < i + n -> exists b, f k = OK b) -> exists b, write_loop n i f = OK b.
Proof.
  induction n as [|n IH]; intros i H; [now exists []|]. cbn [write_loop]. destruct (H i) as [b ->]; [lia|]. cbn [obind].
  destruct (IH (S i)) as [r ->]; [intros k Hk; apply H; lia|]. cbn [obind]. eauto.
Qed.
Lemma write_loop_panic (f : nat -> res bytes) : forall n i, (forall k, i <= k < i + n -> (exists b, f k = OK b) \/ f k = Panic) ->
  (exists k, i <= k < i + n /\ f k = Panic) -> write_loop n i f = Panic.
Proof.
  induction n as [|n IH]; intros i H (k & Hk & E); [lia|]. cbn [write_loop]. destruct (H i) as [[b Eb]|Eb]; [lia| |now rewrite Eb].
  rewrite Eb. cbn [obind]. rewrite IH; [reflexivity|intros m Hm; apply H; lia|]. exists k. split; [|exact E].
  assert (k <> i) by (intros ->; congruence). lia.
Qed.
Lemma write_loop_ext (f g : nat -> res bytes) : forall n i, (forall k, i <= k < i + n -> f k = g k) -> write_loop n i f = write_loop n i g.
Proof.
  induction n as [|n IH]; intros i H; [reflexivity|]. cbn [write_loop]. rewrite H by lia. destruct (g i); cbn [obind]; try reflexivity.
  rewrite (IH (S i)); [reflexivity|]. intros k Hk. apply H. lia.
Qed.
Lemma get_missing a : wf_array a -> forall i, i < arr_len a -> (arr_get a i = OK None <-> missing a i).
Proof.
  induction 1 as [t vs Ht Hv|v ps Hw IH Hl]; intros i Hi; cbn [arr_get arr_len missing] in *.
  - destruct (nth_error vs i) eqn:E; split; try discriminate; contradiction.
  - destruct (nth_error ps i) as [[]|] eqn:E; [|split; auto|apply nth_error_None in E; lia].
    rewrite (IH i Hi). split; [auto|]. intros [H|H]; [discriminate|exact H].
Qed.
Lemma bounded_dec (P : nat -> Prop) : forall n, (forall i, i < n -> P i \/ ~ P i) -> (exists i, i < n /\ P i) \/ (forall i, i < n -> ~ P i).
Proof.
  induction n as [|n IH]; intros H; [right; lia|]. destruct IH as [(i & Hi & K)|K]; [intros i Hi; apply H; lia|left; exists i; split; [lia|exact K]|].
  destruct (H n ltac:(lia)) as [Hn|Hn]; [left; exists n; split; [lia|exact Hn]|]. right. intros i Hi. destruct (Nat.eq_dec i n) as [->|]; [exact Hn|apply K; lia].
Qed.
Lemma undumpable_dec a : wf_array a -> undumpable a \/ ~ undumpable a.
Proof.
  intros [t vs Ht Hv|v ps Hw Hl]; [right; intros (? & ? & ? & E & _); discriminate E|].
  destruct (bounded_dec (missing v) (arr_len v)) as [(i & Hi & K)|K].
  - intros i Hi. destruct (arr_get_ok v Hw i Hi) as ([x|] & E & _); [right|left].
    + intros M. apply get_missing in M; [|assumption..]. congruence.
    + now apply get_missing.
  - left. exists v, ps, i. auto.
  - right. intros (v' & ps' & i & E & Hi & M). injection E as <- <-. now apply (K i).
Qed.
Section Arrays.
  Variable de : denv.
  Lemma dump_array_ok indent a : wf_array a -> ~ undumpable a -> exists b, dump_array de indent a = OK b.
  Proof.
    intros Hw Hu. destruct Hw as [t vs Ht Hv|v ps Hw Hl]; unfold dump_array.
    - destruct (write_loop_ok (fun i => v <- arr_get (ARR t vs) i ;; s <- dump_got de (indent + 2) v ;;
                 OK (nl (indent + 2) ++ FormatUint (N.of_nat i) ++ str ": " ++ s)) (length vs) 0) as [b E].
      { intros k Hk. cbn [arr_get]. destruct (nth_error vs k) as [v|] eqn:Ev; [|apply nth_error_None in Ev; lia]. cbn [obind dump_got]. eauto. }
      cbn [arr_len]. rewrite E. cbn [obind]. eauto.
    - unfold dump_optional.
      match goal with |- context [write_loop ?n 0 ?f] => destruct (write_loop_ok f n 0) as [b E] end.
      { intros k Hk. cbv zeta. destruct (nth_error ps k) as [p|]; [|eauto]. destruct (arr_get_ok v Hw k) as ([x|] & E & _); [lia| |].
        - rewrite E. cbn [obind dump_got]. eauto.
        - exfalso. apply Hu. exists v, ps, k. split; [reflexivity|]. split; [lia|]. apply get_missing; auto; lia. }
      rewrite E. cbn [obind]. eauto.
  Qed.
  Lemma dump_array_panic indent a : wf_array a -> undumpable a -> dump_array de indent a = Panic.
  Proof.
    intros Hw (v & ps & i & -> & Hi & Hm). inversion Hw as [|? ? Hv Hl]; subst. unfold dump_array, dump_optional.
    rewrite write_loop_panic; [reflexivity| |].
    - intros k Hk. destruct (nth_error ps k) as [p|]; [|eauto]. destruct (arr_get_ok v Hv k) as ([x|] & E & _); [lia| |]; rewrite E; cbn [obind dump_got]; eauto.
    - exists i. split; [lia|]. apply get_missing in Hm; [|assumption..]. destruct (nth_error ps i) as [p|] eqn:E; [|apply nth_error_None in E; lia].
      rewrite Hm. reflexivity.
  Qed.
End Arrays.

(** ** The dump of an array shows all of it *)
Definition line (r : bytes) : Prop := exists q, r = x0a :: q.
Lemma line_nl k r : line (nl k ++ r).
Proof. eexists. unfold nl. reflexivity. Qed.
Lemma line_ends r : line r -> ends r.
Proof. intros [q ->]. ends_tac. Qed.
#[export] Hint Resolve line_nl : ends.
Lemma write_loop_numbered {A} (g : A -> bytes) k (f : nat -> res bytes) : forall l i,
  (forall j x, nth_error l j = Some x -> f (i + j) = OK (nl k ++ FormatUint (N.of_nat (i + j)) ++ str ": " ++ g x)) ->
  write_loop (length l) i f = OK (numbered g k i l).
Proof.
  induction l as [|x l IH]; intros i H; [reflexivity|]. cbn [length write_loop numbered].
  pose proof (H 0 x eq_refl) as H0. rewrite Nat.add_0_r in H0. rewrite H0. cbn [obind]. rewrite IH.
  - cbn [obind]. now rewrite <- !app_assoc.
  - intros j y Hj. rewrite Nat.add_succ_comm. now apply H.
Qed.
Lemma cut_elems {A B} (f : A -> bytes) (g : A -> B) (P : A -> Prop) k :
  (forall x y r s, P x -> P y -> line r -> line s -> f x ++ r = f y ++ s -> g x = g y /\ r = s) ->
  forall l l' i r s, Forall P l -> Forall P l' -> length l = length l' -> line r -> line s ->
    numbered f k i l ++ r = numbered f k i l' ++ s -> map g l = map g l' /\ r = s.
Proof.
  intros Hf. induction l as [|x l IH]; intros [|y l'] i r s F F' L Lr Ls H; try discriminate; [auto|].
  inversion F; subst. inversion F'; subst. cbn [numbered] in H. rewrite <- !app_assoc in H. apply app_inv_head in H.
  apply cut_uint in H; [|auto with ends..]. destruct H as [_ H]. apply app_inv_head in H.
  assert (K : forall q r, line r -> line (numbered f k (S i) q ++ r)).
  { intros [|? ?] q0 Hq; [exact Hq|]. cbn [numbered]. rewrite <- app_assoc. apply line_nl. }
  apply Hf in H; [|auto..]. destruct H as [E H]. apply IH in H; [|auto..]. destruct H as [E' ->]. cbn [map]. split; [congruence|reflexivity].
Qed.

Lemma OK_eq {E A} (a b : A) : @OK E A a = OK b -> a = b.
Proof. now intros [= ->]. Qed.
Section Cut.
  Variable de : denv.
  Hypothesis FT : float_text de.

  Definition opt_text (k : nat) (pv : bool * value) : bytes :=
    if fst pv then dump_value de k (snd pv) else str "none (" ++ dump_value de k (snd pv) ++ str ")".
  Lemma numeric_none a r q : numeric a -> line r -> a ++ r <> str "none (" ++ q.
  Proof.
    intros Ha [r' ->] H. change (str "none (") with [x6e; x6f; x6e; x65; x20; x28] in H. cbn [app] in H.
    destruct a as [|c a]; [discriminate H|]. injection H as -> H. destruct a as [|d a]; [discriminate H|]. injection H as -> H.
    inversion Ha as [|? ? _ Hd]; subst. inversion Hd as [|? ? Hd' _]; subst. unfold number_chars in Hd'. cbn in Hd'. intuition discriminate.
  Qed.
  Lemma value_none k v r q : line r -> dump_value de k v ++ r <> str "none (" ++ q.
  Proof.
    intros L. destruct v; cbn [dump_value];
      try (intros H; discriminate H);
      try (apply numeric_none; [|exact L]; first [apply numeric_int|apply numeric_uint|apply (ft_num32 de FT)|apply (ft_num64 de FT)]).
    - unfold dumpString. destruct (forallb _ _); intros H; discriminate H.
    - destruct b; intros H; discriminate H.
  Qed.
  Lemma dump_array_plain indent t vs : dump_array de indent (ARR t vs) =
    OK (nl (S indent) ++ str "Properties: (count:" ++ FormatUint (N.of_nat (length vs)) ++ str ", (type:" ++
      FormatUint (b2N (tid_byte t)) ++ str ") " ++ tid_string t ++ str ") {" ++
      numbered (dump_value de (indent + 2)) (indent + 2) 0 vs ++ nl (S indent) ++ [x7d]).
  Proof.
    unfold dump_array. cbn [arr_type arr_len]. rewrite (write_loop_numbered (dump_value de (indent + 2)) (indent + 2)).
    - cbn [obind]. do 2 f_equal.
    - intros j x Hj. cbn [Nat.add arr_get]. rewrite Hj. reflexivity.
  Qed.
  Lemma dump_array_opt indent t vs ps : length ps = length vs -> dump_array de indent (AOPT (Some (ARR t vs)) ps) =
    OK (nl (S indent) ++ str "Properties: (count:" ++ FormatUint (N.of_nat (length vs)) ++ str ", (type:" ++
      FormatUint (b2N (tid_byte tOptional)) ++ str ") " ++ tid_string tOptional ++ str ") " ++
      str "((type:" ++ FormatUint (b2N (tid_byte t)) ++ str ") " ++ tid_string t ++ str ") {" ++
      numbered (opt_text (S indent + 2)) (S indent + 2) 0 (combine ps vs) ++ nl (S (S indent)) ++ [x7d]).
  Proof.
    intros L. unfold dump_array, dump_optional. cbn [arr_type arr_len].
    replace (length vs) with (length (combine ps vs)) at 1 by (rewrite combine_length; lia).
    rewrite (write_loop_numbered (opt_text (S indent + 2)) (S indent + 2)).
    - cbn [obind]. reflexivity.
    - intros j [p v] Hj. cbn [Nat.add arr_get]. assert (nth_error ps j = Some p /\ nth_error vs j = Some v) as [Ep Ev].
      { clear - Hj. revert vs j Hj. induction ps as [|p' ps IH]; intros [|v' vs] [|j] Hj; try discriminate; [injection Hj as -> ->; auto|]. exact (IH vs j Hj). }
      rewrite Ep, Ev. cbn [obind dump_got]. unfold opt_text. cbn [fst snd]. destruct p; rewrite <- ?app_assoc; cbn [app]; now rewrite ?app_nil_r.
  Qed.
  Lemma tid_byte_inj t u : b2N (tid_byte t) = b2N (tid_byte u) -> t = u.
  Proof. destruct t, u; intros H; try reflexivity; discriminate H. Qed.
  Lemma cut_array indent a b x y r s : wf_array a -> wf_array b -> ~ nested a -> ~ nested b ->
    dump_array de indent a = OK x -> dump_array de indent b = OK y -> x ++ r = y ++ s -> shown_array a = shown_array b /\ r = s.
  Proof.
    intros Ha Hb Na Nb.
    assert (S1 : forall c, wf_array c -> ~ nested c ->
      (exists t vs, c = ARR t vs /\ t <> tOptional /\ Forall (fun v => vtype v = t /\ wf_value v) vs) \/
      (exists t vs ps, c = AOPT (Some (ARR t vs)) ps /\ length ps = length vs /\ Forall (fun v => vtype v = t /\ wf_value v) vs)).
    { intros c [t vs Ht Hv|v ps Hw Hl] Hn; [left; eauto|]. destruct Hw as [t vs Ht Hv|v' ps' Hw' Hl'].
      - right. exists t, vs, ps. auto.
      - exfalso. apply Hn. unfold nested. eauto. }
    assert (V : forall k t v w r s, vtype v = t /\ wf_value v -> vtype w = t /\ wf_value w -> line r -> line s ->
       dump_value de k v ++ r = dump_value de k w ++ s -> shown v = shown w /\ r = s).
    { intros k t v w r0 s0 [T1 W1] [T2 W2] Lr Ls H. apply (cut_value de FT k) in H; auto using line_ends. congruence. }
    destruct (S1 a Ha Na) as [(t & vs & -> & Nt & F)|(t & vs & ps & -> & L & F)];
    destruct (S1 b Hb Nb) as [(u & ws & -> & Nu & G)|(u & ws & qs & -> & M & G)]; clear S1;
      rewrite ?dump_array_plain, ?dump_array_opt by assumption; intros Ex Ey; apply OK_eq in Ex, Ey; rewrite <- Ex, <- Ey; clear Ex Ey x y; intros H;
      rewrite <- !app_assoc in H; do 2 apply app_inv_head in H;
      (apply cut_uint in H; [|ends_tac..]); destruct H as [E H]; apply Nat2N.inj in E; apply app_inv_head in H;
      (apply cut_uint in H; [|ends_tac..]); destruct H as [E2 H]; apply tid_byte_inj in E2; try congruence.
    - subst u. do 3 apply app_inv_head in H.
      apply (cut_elems _ shown (fun v => vtype v = t /\ wf_value v)) in H; [|intros; now apply (V _ t) in H4|exact F|exact G|exact E|apply line_nl..].
      destruct H as [E' H]. apply app_inv_head in H. injection H as ->. cbn [shown_array]. split; congruence.
    - do 4 apply app_inv_head in H. (apply cut_uint in H; [|ends_tac..]). destruct H as [E3 H]. apply tid_byte_inj in E3. subst u.
      do 3 apply app_inv_head in H.
      assert (W : forall (P : value -> Prop) (ps : list bool) vs, Forall P vs -> Forall (fun pv => P (snd pv)) (combine ps vs)).
      { clear. intros P ps vs F. revert ps. induction F; intros [|p ps]; cbn [combine]; constructor; auto. }
      apply (cut_elems _ (fun pv => (fst pv, shown (snd pv))) (fun pv => vtype (snd pv) = t /\ wf_value (snd pv))) in H;
        [| |now apply (W (fun v => vtype v = t /\ wf_value v))|now apply (W (fun v => vtype v = t /\ wf_value v))
         |rewrite !combine_length; lia|apply line_nl..].
      + destruct H as [E' H]. apply app_inv_head in H. injection H as ->. cbn [shown_array]. split; [|reflexivity].
        assert (K : ps = qs /\ map shown vs = map shown ws); [|destruct K as [-> ->]; reflexivity].
        clear - E' L M E. revert vs qs ws L M E E'. induction ps as [|p ps IH]; intros [|v vs] [|q qs] [|w ws] L M E E'; try discriminate; [auto|].
        cbn [combine map fst snd] in *. injection E' as -> Es E'. injection L as L. injection M as M. injection E as E.
        destruct (IH vs qs ws L M E E') as [-> ->]. rewrite Es. auto.
      + intros [p v] [q w] r0 s0 Hv Hw Lr Ls K. cbn [fst snd] in *. unfold opt_text in K. cbn [fst snd] in K. destruct p, q.
        * apply (V _ t) in K; auto. destruct K as [-> ->]. auto.
        * rewrite <- app_assoc in K. now apply value_none in K.
        * rewrite <- app_assoc in K. symmetry in K. now apply value_none in K.
        * rewrite <- !app_assoc in K. apply app_inv_head in K. destruct Hv as [T1 W1], Hw as [T2 W2].
          apply (cut_value de FT) in K; auto with ends; [|congruence]. destruct K as [-> K]. apply app_inv_head in K. subst. auto.
  Qed.
End Cut.

(** ** Chunks *)
Lemma nl_deeper k j a b : nl (k + S j) ++ a <> nl k ++ x7d :: b.
Proof.
  unfold nl. cbn [app]. intros H. apply (f_equal (@tl byte)) in H. cbn [tl] in H. rewrite repeat_app, <- app_assoc in H. apply app_inv_head in H. discriminate.
Qed.
Lemma spaced_cut (a b r s : bytes) : length a = 4 -> length b = 4 -> spaced_hex a ++ r = spaced_hex b ++ s -> a = b /\ r = s.
Proof.
  assert (U : forall c d, upper_byte c = upper_byte d -> c = d).
  { intros c d H. apply hex2_inj. assert (K : forall z, hex2 z = map (fun h => if (b2N h <? 0x40)%N then h else N2b (b2N h + 32)) (upper_byte z)) by (intros []; reflexivity).
    now rewrite !K, H. }
  assert (C : forall c d r s, upper_byte c ++ r = upper_byte d ++ s -> c = d /\ r = s).
  { intros c d r0 s0 H. apply app_inj_len in H; [|reflexivity]. destruct H as [H ->]. split; [now apply U|reflexivity]. }
  destruct a as [|a1 [|a2 [|a3 [|a4 [|]]]]]; try discriminate. destruct b as [|b1 [|b2 [|b3 [|b4 [|]]]]]; try discriminate.
  intros _ _ H. cbn [spaced_hex] in H. rewrite <- !app_assoc in H. cbn [app] in H.
  apply C in H. destruct H as [-> H]. apply (f_equal (@tl byte)) in H. cbn [tl] in H. rewrite <- !app_assoc in H. cbn [app] in H.
  apply C in H. destruct H as [-> H]. apply (f_equal (@tl byte)) in H. cbn [tl] in H. rewrite <- !app_assoc in H. cbn [app] in H.
  apply C in H. destruct H as [-> H]. apply (f_equal (@tl byte)) in H. cbn [tl] in H.
  apply C in H. destruct H as [-> ->]. auto.
Qed.
Lemma cut_sig a b r s : f32 a -> f32 b -> dumpSig a ++ r = dumpSig b ++ s -> a = b /\ r = s.
Proof.
  intros Ha Hb H. unfold dumpSig in H. rewrite <- !app_assoc in H.
  apply app_inj_len in H; [|now rewrite !map_length; unfold le32; rewrite !le_bytes_length].
  destruct H as [_ H]. apply app_inv_head in H. apply spaced_cut in H; [|unfold le32; apply le_bytes_length..]. destruct H as [E H].
  apply app_inv_head in H. split; [|exact H]. unfold le32 in E. apply (f_equal le_N) in E. rewrite !le_N_le_bytes in E.
  rewrite !N.mod_small in E by assumption. exact E.
Qed.
Lemma payload_sig p : read_shape p -> is_errp p = false -> f32 (psig p).
Proof. destruct p; intros H E; try discriminate E; try reflexivity. apply H. Qed.

Section CutFile.
  Variable de : denv.
  Hypothesis FT : float_text de.

  Lemma cut_pairs (g : bytes * bytes -> bytes) :
    (forall x y r s, g x ++ r = g y ++ s -> x = y /\ r = s) ->
    forall l l' r s, length l = length l' -> flat_map g l ++ r = flat_map g l' ++ s -> l = l' /\ r = s.
  Proof.
    intros Hg. induction l as [|x l IH]; intros [|y l'] r s L H; try discriminate; [auto|].
    cbn [flat_map] in H. rewrite <- !app_assoc in H. apply Hg in H. destruct H as [-> H]. apply IH in H; [|now injection L]. destruct H as [-> ->]. auto.
  Qed.
  (** Instances *)
  Definition inst_line (k : nat) (svc : bool) (gs : bytes) (ii : nat * Z) : bytes :=
    nl k ++ FormatUint (N.of_nat (fst ii)) ++ str ": " ++ FormatInt (snd ii) ++
            (if svc then
               match nth_error gs (fst ii) with
               | None => str " (invalid)"
               | Some g => str " (" ++ FormatUint (b2N g) ++ str ")"
               end
             else []).
  Lemma cut_insts k svc gs gs' : forall ids ids' i r s,
    length ids = length ids' -> (svc = true -> i + length ids = length gs /\ i + length ids = length gs') -> line r -> line s ->
    flat_map (inst_line k svc gs) (combine (seq i (length ids)) ids) ++ r = flat_map (inst_line k svc gs') (combine (seq i (length ids')) ids') ++ s ->
    ids = ids' /\ (svc = true -> skipn i gs = skipn i gs') /\ r = s.
  Proof.
    induction ids as [|z ids IH]; intros [|z' ids'] i r s L Hg Lr Ls H; try discriminate.
    - cbn in H. split; [reflexivity|]. split; [|exact H]. intros Hs. destruct (Hg Hs) as [H1 H2]. cbn in H1, H2. rewrite !skipn_all2 by lia. reflexivity.
    - cbn [length seq combine flat_map] in H. unfold inst_line at 1 3 in H. cbn [fst snd] in H. rewrite <- !app_assoc in H. apply app_inv_head in H.
      apply cut_uint in H; [|auto with ends..]. destruct H as [_ H]. apply app_inv_head in H.
      assert (Ln : forall q svc gs i r, line r -> line (flat_map (inst_line k svc gs) (combine (seq i (length q)) q) ++ r)).
      { intros [|? ?] ? ? ? ? Hq; [exact Hq|]. cbn [length seq combine flat_map]. unfold inst_line at 1. rewrite <- !app_assoc. apply line_nl. }
      destruct svc.
      + destruct (Hg eq_refl) as [G1 G2]. cbn [length] in G1, G2.
        destruct (nth_error gs i) as [g|] eqn:Eg; [|apply nth_error_None in Eg; lia].
        destruct (nth_error gs' i) as [g'|] eqn:Eg'; [|apply nth_error_None in Eg'; lia].
        rewrite <- !app_assoc in H. apply cut_int in H; [|ends_tac..]. destruct H as [-> H]. apply app_inv_head in H.
        apply cut_uint in H; [|auto with ends..]. destruct H as [E H]. apply b2N_inj in E. subst g'. apply app_inv_head in H.
        apply IH in H; [|now injection L|intros _; lia|exact Lr|exact Ls]. destruct H as (-> & E & ->). split; [reflexivity|]. split; [|reflexivity]. intros _.
        assert (K : forall (l : bytes) x, nth_error l i = Some x -> skipn i l = x :: skipn (S i) l).
        { clear. induction i as [|i IH]; intros [|y l] x H; try discriminate; [now injection H as ->|]. cbn [skipn]. apply (IH l x H). }
        rewrite (K gs g Eg), (K gs' g Eg'). now rewrite E by reflexivity.
      + cbn [app] in H. apply cut_int in H; [|apply line_ends; apply Ln; assumption..]. destruct H as [-> H].
        apply IH in H; [|now injection L|discriminate|exact Lr|exact Ls]. destruct H as (-> & _ & ->). split; [reflexivity|]. split; [discriminate|reflexivity].
  Qed.
  (** Parents *)
  Definition link_line (k : nat) (cp : Z * Z) : bytes := nl k ++ FormatInt (fst cp) ++ str " : " ++ FormatInt (snd cp).
  Lemma links_eq indent : forall cs ps, length cs = length ps -> dump_links indent cs ps = flat_map (link_line (indent + 2)) (combine cs ps).
  Proof.
    assert (G : forall (cs ps pre pre' : list Z), length cs = length ps -> length pre = length pre' ->
      flat_map (fun i => let side (l : list Z) := match nth_error l i with Some n => FormatInt n | None => str "invalid" end in
        nl (indent + 2) ++ side (pre ++ cs) ++ str " : " ++ side (pre' ++ ps)) (seq (length pre) (length cs)) =
      flat_map (link_line (indent + 2)) (combine cs ps)).
    { induction cs as [|c cs IH]; intros [|p ps] pre pre' L L'; try discriminate; [reflexivity|].
      cbn [length seq flat_map combine]. cbv zeta. rewrite nth_error_app2 by lia. rewrite L' at 2. rewrite nth_error_app2 by lia. rewrite L' , !Nat.sub_diag. cbn [nth_error].
      unfold link_line at 1. cbn [fst snd]. f_equal. specialize (IH ps (pre ++ [c]) (pre' ++ [p])).
      rewrite !app_length in IH. cbn [length] in IH. rewrite <- !app_assoc in IH. cbn [app] in IH. rewrite !Nat.add_1_r, L' in IH.
      apply IH; [now injection L|reflexivity]. }
    intros cs ps L. unfold dump_links. rewrite <- L, Nat.max_id. apply (G cs ps [] []); auto.
  Qed.
  Lemma cut_links k : forall l l' r s,
    flat_map (link_line (k + 2)) l ++ nl k ++ x7d :: r = flat_map (link_line (k + 2)) l' ++ nl k ++ x7d :: s -> l = l' /\ r = s.
  Proof.
    induction l as [|[a b] l IH]; intros [|[a' b'] l'] r s H; cbn [flat_map app] in H.
    - apply app_inv_head in H. injection H as ->. auto.
    - unfold link_line at 1 in H. rewrite <- !app_assoc in H. symmetry in H. now apply nl_deeper in H.
    - unfold link_line at 1 in H. rewrite <- !app_assoc in H. now apply nl_deeper in H.
    - unfold link_line at 1 3 in H. cbn [fst snd] in H. rewrite <- !app_assoc in H. apply app_inv_head in H.
      apply cut_int in H; [|ends_tac..]. destruct H as [-> H]. apply app_inv_head in H.
      assert (En : forall l q, ends (flat_map (link_line (k + 2)) l ++ nl k ++ q)).
      { intros [|z l0] q; cbn [flat_map app]; [apply ends_nl|]. unfold link_line at 1. rewrite <- !app_assoc. apply ends_nl. }
      apply cut_int in H; [|apply En..]. destruct H as [-> H]. apply IH in H. destruct H as [-> ->]. auto.
  Qed.

  Definition no_nested (c : chunk) : Prop := forall id name a, ch_payload c = PProp id name (Some a) -> ~ nested a.
  Lemma cut_payload z k cs p q x y r s : read_shape p -> read_shape q -> is_errp p = false -> is_errp q = false -> psig p = psig q ->
    no_nested (Chunk z p) -> no_nested (Chunk z q) ->
    dump_payload de k cs p = OK x -> dump_payload de k cs q = OK y -> x ++ nl k ++ x7d :: r = y ++ nl k ++ x7d :: s ->
    shown_chunk (Chunk z p) = shown_chunk (Chunk z q) /\ r = s.
  Proof.
    intros Hp Hq Np Nq Es Op Oq Ex Ey H. unfold shown_chunk. cbn [ch_compressed ch_payload].
    assert (K : match p, q with
      | PMeta _, PMeta _ | PSstr _ _, PSstr _ _ | PInst _ _ _ _ _, PInst _ _ _ _ _ | PProp _ _ _, PProp _ _ _ | PPrnt _ _ _, PPrnt _ _ _
      | PEnd _, PEnd _ | PUnknown _ _, PUnknown _ _ => True | _, _ => False end).
    { destruct p, q; try exact I; try discriminate Np; try discriminate Nq; try discriminate Es; exfalso; cbn in Hp, Hq, Es;
        first [rewrite <- Es in Hq; discriminate (proj2 Hq)|rewrite Es in Hp; discriminate (proj2 Hp)]. }
    destruct p as [vs|v vs|id name ids svc gs|id name a|v cl pl|c|sg c|sg off e c], q as [vs'|v' vs'|id' name' ids' svc' gs'|id' name' a'|v' cl' pl'|c'|sg' c'|sg' off' e' c'];
      try contradiction; clear K; cbn [dump_payload] in Ex, Ey.
    - (* META *) apply OK_eq in Ex, Ey. rewrite <- Ex, <- Ey in H. rewrite <- !app_assoc in H. do 2 apply app_inv_head in H.
      assert (En : forall (vs : list (bytes * bytes)) q, ends (flat_map (fun kv => nl (S k) ++ str "{" ++
            nl (k + 2) ++ str "Key: " ++ dumpString de (k + 2) (fst kv) ++
            nl (k + 2) ++ str "Value: " ++ dumpString de (k + 2) (snd kv) ++
            nl (S k) ++ str "}") vs ++ nl k ++ q)).
      { intros [|? ?] q; cbn [flat_map]; [apply ends_nl|]. rewrite <- !app_assoc. apply ends_nl. }
      apply cut_uint in H; [|apply En..]. destruct H as [E H]. apply Nat2N.inj in E. apply cut_pairs in H; [| |exact E].
      + destruct H as [-> H]. apply app_inv_head in H. injection H as ->. auto.
      + intros [a b] [a' b'] r0 s0 G. cbn [fst snd] in G. rewrite <- !app_assoc in G. do 4 apply app_inv_head in G.
        apply cut_string in G. destruct G as [-> G]. do 2 apply app_inv_head in G. apply cut_string in G. destruct G as [-> G].
        do 2 apply app_inv_head in G. auto.
    - (* SSTR *) apply OK_eq in Ex, Ey. rewrite <- Ex, <- Ey in H. rewrite <- !app_assoc in H. do 2 apply app_inv_head in H.
      apply cut_uint in H; [|auto with ends..]. destruct H as [-> H]. do 2 apply app_inv_head in H.
      apply cut_uint in H; [|auto with ends..]. destruct H as [E H]. apply Nat2N.inj in E. apply app_inv_head in H.
      apply (cut_numbered _ (fun x => x) (fun _ => True)) in H; [| |now apply Forall_forall..|exact E].
      + rewrite !map_id in H. destruct H as [-> H]. apply app_inv_head in H. injection H as H. apply app_inv_head in H. injection H as ->. auto.
      + intros [a b] [a' b'] r0 s0 _ _ G. cbn [fst snd] in G. rewrite <- !app_assoc in G. do 3 apply app_inv_head in G.
        apply cut_bytes in G. destruct G as [-> G]. do 2 apply app_inv_head in G. apply cut_bytes in G. destruct G as [-> G].
        do 2 apply app_inv_head in G. auto.
    - (* INST *) apply OK_eq in Ex, Ey. rewrite <- Ex, <- Ey in H. clear Ex Ey x y. rewrite <- !app_assoc in H. do 2 apply app_inv_head in H.
      apply cut_int in H; [|auto with ends..]. destruct H as [-> H]. do 2 apply app_inv_head in H.
      apply cut_string in H. destruct H as [-> H]. do 2 apply app_inv_head in H.
      apply cut_uint in H; [|destruct svc; ends_tac|destruct svc'; ends_tac]. destruct H as [E H]. apply Nat2N.inj in E.
      assert (svc = svc') as <- by (destruct svc, svc'; try reflexivity; discriminate H). apply app_inv_head in H.
      assert (FE : forall gs (l : list (nat * Z)), flat_map (fun ii : nat * Z => let ' (i, id) := ii in
            nl (k + 2) ++ FormatUint (N.of_nat i) ++ str ": " ++ FormatInt id ++
            (if svc then match nth_error gs i with None => str " (invalid)" | Some g => str " (" ++ FormatUint (b2N g) ++ str ")" end else [])) l =
            flat_map (inst_line (k + 2) svc gs) l).
      { intros gs0 l. apply flat_map_ext. intros [i id]. reflexivity. }
      rewrite !FE in H. cbn [read_shape] in Hp, Hq. apply cut_insts in H; [|exact E|intros ->; lia|apply line_nl..].
      destruct H as (-> & G & H). cbn [skipn] in G. apply app_inv_head in H. injection H as H. apply app_inv_head in H. injection H as ->.
      split; [|reflexivity]. destruct svc; [now rewrite G|]. destruct gs; [|discriminate]. destruct gs'; [reflexivity|discriminate].
    - (* PROP *)
      destruct (match a with None => OK [] | Some a => dump_array de k a end) as [b|?| |] eqn:Eb; cbn [obind] in Ex; try discriminate.
      destruct (match a' with None => OK [] | Some a => dump_array de k a end) as [b'|?| |] eqn:Eb'; cbn [obind] in Ey; try discriminate.
      apply OK_eq in Ex, Ey. rewrite <- Ex, <- Ey in H. clear Ex Ey x y. rewrite <- !app_assoc in H. do 2 apply app_inv_head in H.
      apply cut_int in H; [|destruct (class_get cs id) as [[? ?]|]; ends_tac|destruct (class_get cs id') as [[? ?]|]; ends_tac].
      destruct H as [-> H]. apply app_inv_head in H. do 2 apply app_inv_head in H. apply cut_string in H. destruct H as [-> H].
      assert (NE : forall a b r s, dump_array de k a = OK b -> b ++ r <> nl k ++ x7d :: s).
      { intros c b0 r0 s0 E G. unfold dump_array in E. destruct (match c with ARR _ _ => _ | AOPT v p => _ end) as [b1|?| |]; cbn [obind] in E; try discriminate.
        apply OK_eq in E. rewrite <- E in G. rewrite <- !app_assoc in G. replace (S k) with (k + 1) in G by lia. now apply nl_deeper in G. }
      destruct a as [a|], a' as [a'|].
      + apply (cut_array de FT k a a') in H; auto; [|now apply (Op id' name')|now apply (Oq id' name')].
        destruct H as [-> H]. apply app_inv_head in H. injection H as ->. auto.
      + injection Eb' as <-. cbn [app] in H. now apply (NE a) in H.
      + injection Eb as <-. cbn [app] in H. symmetry in H. now apply (NE a') in H.
      + injection Eb as <-. injection Eb' as <-. cbn [app] in H. apply app_inv_head in H. injection H as ->. auto.
    - (* PRNT *) apply OK_eq in Ex, Ey. cbn [read_shape] in Hp, Hq. rewrite links_eq in Ex, Ey by assumption.
      rewrite <- Ex, <- Ey in H. clear Ex Ey x y. rewrite <- !app_assoc in H. do 2 apply app_inv_head in H.
      apply cut_uint in H; [|auto with ends..]. destruct H as [-> H]. do 2 apply app_inv_head in H. apply cut_links in H. destruct H as [E ->].
      split; [|reflexivity]. assert (K : cl = cl' /\ pl = pl'); [|destruct K as [-> ->]; reflexivity].
      clear - E Hp Hq. revert pl cl' pl' Hp Hq E. induction cl as [|a cl IH]; intros [|b pl] [|a' cl'] [|b' pl'] Hp Hq E; try discriminate; [auto|].
      cbn [combine] in E. injection E as -> -> E. injection Hp as Hp. injection Hq as Hq. destruct (IH pl cl' pl' Hp Hq E) as [-> ->]. auto.
    - (* END *) apply OK_eq in Ex, Ey. rewrite <- Ex, <- Ey in H. rewrite <- !app_assoc in H. do 2 apply app_inv_head in H.
      apply cut_string in H. destruct H as [-> H]. apply app_inv_head in H. injection H as ->. auto.
    - (* unknown *) apply OK_eq in Ex, Ey. rewrite <- Ex, <- Ey in H. rewrite <- !app_assoc in H. do 4 apply app_inv_head in H.
      apply cut_bytes in H. destruct H as [-> H]. apply app_inv_head in H. injection H as ->. cbn in Es. subst. auto.
  Qed.

  Definition readable (c : chunk) : Prop := read_shape (ch_payload c) /\ is_errored c = false /\ no_nested c.
  Lemma class_add_shown cs c d : shown_chunk c = shown_chunk d -> class_add cs (ch_payload c) = class_add cs (ch_payload d).
  Proof.
    destruct c as [z p], d as [z' q]. unfold shown_chunk. cbn [ch_compressed ch_payload]. intros H.
    destruct p as [| | |? ? [a|]| | | |], q as [| | |? ? [a'|]| | | |]; try discriminate H; try reflexivity. injection H as _ -> -> -> -> ->. reflexivity.
  Qed.
  Lemma cut_chunks inner inner' : forall l l' i cs x y r s, Forall readable l -> Forall readable l' ->
    dump_chunks de inner i cs l = OK x -> dump_chunks de inner' i cs l' = OK y -> x ++ nl 0 ++ x7d :: r = y ++ nl 0 ++ x7d :: s ->
    map shown_chunk l = map shown_chunk l' /\ r = s.
  Proof.
    assert (C : forall inner i cs c b cs', readable c -> dump_chunk de i (inner i) cs c = OK (b, cs') ->
      exists t, dump_payload de 1 cs' (ch_payload c) = OK t /\ cs' = class_add cs (ch_payload c) /\
        b = dump_head 1 (Some i) (psig (ch_payload c)) (ch_compressed c) ++ t ++ nl 1 ++ [x7d]).
    { intros inn i cs [z p] b cs' (_ & He & _) H. unfold dump_chunk in H. cbn [ch_payload ch_compressed] in *.
      destruct p; try discriminate He;
        (destruct (dump_payload de 1 _ _) as [t|?| |] eqn:E; cbn [obind] in H; try discriminate H);
        (apply OK_eq in H; apply pair_equal_spec in H; destruct H as [<- <-]; exists t; auto). }
    induction l as [|c l IH]; intros [|d l'] i cs x y r s F G Ex Ey H; cbn [dump_chunks] in Ex, Ey.
    - apply OK_eq in Ex, Ey. subst x y. cbn [app] in H. apply app_inv_head in H. injection H as ->. auto.
    - inversion G; subst. destruct (dump_chunk de i (inner' i) cs d) as [[b cs']|?| |] eqn:Ec; cbn [obind] in Ey; try discriminate.
      apply OK_eq in Ex. subst x. apply C in Ec; [|assumption]. destruct Ec as (t & _ & _ & ->).
      destruct (dump_chunks de inner' (S i) cs' l') as [b'|?| |]; cbn [obind] in Ey; try discriminate. apply OK_eq in Ey. subst y.
      exfalso. symmetry in H. unfold dump_head in H. rewrite <- !app_assoc in H. exact (nl_deeper 0 0 _ _ H).
    - inversion F; subst. destruct (dump_chunk de i (inner i) cs c) as [[b cs']|?| |] eqn:Ec; cbn [obind] in Ex; try discriminate.
      apply OK_eq in Ey. subst y. apply C in Ec; [|assumption]. destruct Ec as (t & _ & _ & ->).
      destruct (dump_chunks de inner (S i) cs' l) as [b'|?| |]; cbn [obind] in Ex; try discriminate. apply OK_eq in Ex. subst x.
      exfalso. unfold dump_head in H. rewrite <- !app_assoc in H. exact (nl_deeper 0 0 _ _ H).
    - inversion F; subst. inversion G; subst.
      destruct (dump_chunk de i (inner i) cs c) as [[b c1]|?| |] eqn:Ec; cbn [obind] in Ex; try discriminate.
      destruct (dump_chunks de inner (S i) c1 l) as [b'|?| |] eqn:El; cbn [obind] in Ex; try discriminate. apply OK_eq in Ex. subst x.
      destruct (dump_chunk de i (inner' i) cs d) as [[e c2]|?| |] eqn:Ed; cbn [obind] in Ey; try discriminate.
      destruct (dump_chunks de inner' (S i) c2 l') as [e'|?| |] eqn:El'; cbn [obind] in Ey; try discriminate. apply OK_eq in Ey. subst y.
      apply C in Ec, Ed; [|assumption..]. destruct Ec as (t & E1 & E2 & ->), Ed as (u & E3 & E4 & ->).
      destruct c as [z p], d as [z' q]. destruct H2 as (S1 & S2 & S3), H4 as (S4 & S5 & S6). cbn [ch_payload ch_compressed] in *.
      unfold dump_head in H. rewrite <- !app_assoc in H. do 2 apply app_inv_head in H. apply app_inv_head in H. apply app_inv_head in H.
      assert (Np : is_errp p = false) by now destruct p. assert (Nq : is_errp q = false) by now destruct q.
      apply cut_sig in H; [|now apply payload_sig..]. destruct H as [Es H].
      assert (z = z') as <- by (destruct z, z'; try reflexivity; discriminate H). apply app_inv_head in H. cbn [app] in H.
      assert (Ecs : c1 = c2).
      { rewrite E2, E4. destruct p, q; try reflexivity; try discriminate Es; try discriminate Np; try discriminate Nq.
        - cbn [dump_payload] in E1, E3. apply OK_eq in E1, E3. subst t u. rewrite <- !app_assoc in H. do 2 apply app_inv_head in H.
          apply cut_int in H; [|auto with ends..]. destruct H as [-> H]. do 2 apply app_inv_head in H.
          apply cut_string in H. destruct H as [-> H]. do 2 apply app_inv_head in H.
          apply cut_uint in H; [|match goal with |- ends ((if ?b then _ else _) ++ _) => destruct b; ends_tac end..]. destruct H as [E H].
          apply Nat2N.inj in E. cbn [class_add]. now rewrite E.
        - cbn in Es. destruct S4 as [_ V]. rewrite <- Es in V. discriminate V.
        - cbn in Es. destruct S1 as [_ V]. rewrite Es in V. discriminate V. }
      subst c2. rewrite <- Ecs in E3, El'. rewrite E2 in *.
      apply (cut_payload z) with (p := p) (q := q) (cs := class_add cs p) in H; [|assumption..]. destruct H as [E H].
      destruct (IH l' (S i) (class_add cs p) b' e' r s) as [E' ->]; auto. cbn [map]. split; [congruence|reflexivity].
  Qed.
  Theorem cut_model inner inner' f g t : Forall readable (fm_chunks f) -> Forall readable (fm_chunks g) ->
    dump_model de inner f = OK t -> dump_model de inner' g = OK t ->
    fm_version f = fm_version g /\ fm_classCount f = fm_classCount g /\ fm_instCount f = fm_instCount g /\
    map shown_chunk (fm_chunks f) = map shown_chunk (fm_chunks g).
  Proof.
    intros F G. unfold dump_model. destruct (dump_chunks de inner 0 [] (fm_chunks f)) as [x|?| |] eqn:Ex; cbn [obind]; try discriminate.
    destruct (dump_chunks de inner' 0 [] (fm_chunks g)) as [y|?| |] eqn:Ey; cbn [obind]; try discriminate.
    intros E1 E2. apply OK_eq in E1, E2. rewrite <- E2 in E1. clear E2. rename E1 into H.
    apply app_inv_head in H. apply cut_uint in H; [|auto with ends..]. destruct H as [-> H]. do 2 apply app_inv_head in H.
    apply cut_uint in H; [|auto with ends..]. destruct H as [-> H]. do 2 apply app_inv_head in H.
    apply cut_uint in H; [|auto with ends..]. destruct H as [-> H]. do 2 apply app_inv_head in H.
    apply (cut_chunks inner inner' (fm_chunks f) (fm_chunks g) 0 [] x y [] []) in H; auto. destruct H as [-> _]. auto.
  Qed.
End CutFile.
