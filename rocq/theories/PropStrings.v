(** PropStrings.v - properties of the texts of values (C87, C88). *)
From Coq Require Import QArith Lqa Decimal DecimalN DecimalFacts.
From Verif Require Import Base RbxlValues RbxValues SpecValues SpecRoot PropRoot XmlText XmlTextProofs XmlFloats XmlFloatsProofs XmlFloatsFit SpecDump DumpProofs DumpValues RbxStrings SpecStrings.
Close Scope Q_scope.
Local Open Scope nat_scope.

(** ** joinstr joins *)
Lemma upd_mid {A} (pre : list A) x post i a : length pre = i -> upd (pre ++ x :: post) i a = pre ++ a :: post.
Proof. revert i. induction pre as [|y pre IH]; intros [|i] H; try discriminate; [reflexivity|]. cbn. f_equal. apply IH. now injection H. Qed.
Lemma copy_at_mid s : forall pre old post bp, length pre = bp -> length old = length s -> copy_at (pre ++ old ++ post) bp s = pre ++ s ++ post.
Proof.
  induction s as [|c s IH]; intros pre [|x old] post bp Hp Hl; try discriminate; [reflexivity|].
  cbn [copy_at]. cbn [app]. rewrite upd_mid by exact Hp.
  replace (pre ++ c :: old ++ post) with ((pre ++ [c]) ++ old ++ post) by now rewrite <- app_assoc.
  rewrite IH; [now rewrite <- app_assoc|rewrite app_length; cbn; lia|now injection Hl].
Qed.
Lemma joinstr_loop_eq a : forall pre old bp, length pre = bp -> length old = length (concat a) -> joinstr_loop (pre ++ old) bp a = pre ++ concat a.
Proof.
  induction a as [|s a IH]; intros pre old bp Hp Hl; cbn [joinstr_loop concat] in *; [destruct old; [reflexivity|discriminate]|].
  rewrite app_length in Hl.
  replace old with (firstn (length s) old ++ skipn (length s) old) by apply firstn_skipn.
  rewrite copy_at_mid; [|exact Hp|rewrite firstn_length; lia].
  rewrite (app_assoc pre). rewrite IH.
  - now rewrite <- app_assoc.
  - rewrite !app_length, firstn_length, skipn_length. lia.
  - rewrite skipn_length. lia.
Qed.
Lemma joinstr_concat a : joinstr a = concat a.
Proof.
  unfold joinstr. change (repeat x00 (fold_left (fun n s => n + length s) a 0)) with ([] ++ repeat x00 (fold_left (fun n s => n + length s) a 0)).
  rewrite joinstr_loop_eq; [reflexivity|reflexivity|]. rewrite repeat_length.
  assert (G : forall a n, fold_left (fun n (s : bytes) => n + length s) a n = n + length (concat a)).
  { clear a. induction a as [|s a IH]; intros n; cbn; [lia|]. rewrite IH, app_length. lia. }
  now rewrite G.
Qed.
Lemma sequence_loop_eq {K} (key : K -> bytes) t : forall b, sequence_loop key b t = b ++ flat_map (fun k => key k ++ [x20]) t.
Proof.
  induction t as [|k t IH]; intros b; cbn [sequence_loop flat_map]; [now rewrite app_nil_r|]. rewrite IH. now rewrite <- !app_assoc.
Qed.
Lemma Join_cons s a sep : a <> [] -> strings_Join (s :: a) sep = s ++ sep ++ strings_Join a sep.
Proof. now destruct a. Qed.

(** ** C87 *)
Section Text.
Variables (ff32 ff64 : N -> bytes) (reference : ptr -> bytes).
Notation String_ := (value_string ff32 ff64 reference).
Definition text (c : component) : bytes :=
  match c with CFloat f => ff32 f | CDouble f => ff64 f | CInt z => FormatInt z | CText s => s end.
Fixpoint no_reference (v : rvalue) : Prop :=
  match v with RReference _ => False | ROptional _ (Some v) => no_reference v | _ => True end.

Lemma FormatInt_N n : FormatInt (Z.of_N n) = FormatUint n.
Proof. unfold FormatInt. destruct (Z.ltb_spec (Z.of_N n) 0); [lia|]. now rewrite N2Z.id. Qed.
Lemma str_app a b : str (a ++ b)%string = str a ++ str b.
Proof. unfold str. induction a as [|c a IH]; [reflexivity|]. cbn. now f_equal. Qed.
Lemma fill_one s : fill (str "%") [s] = s.
Proof. change (fill (str "%") [s]) with (s ++ []). apply app_nil_r. Qed.
Lemma times_S n s : times (S n) s = (s ++ times n s)%string.
Proof.
  unfold times. destruct n; cbn [repeat String.concat]; [|reflexivity].
  induction s as [|c s IH]; [reflexivity|]. cbn. now rewrite <- IH.
Qed.
Lemma fill_number_keys l : forall ks, fill (str (times (length ks) "% % % "))
    (map text (flat_map (fun k => map CFloat [ns_time k; ns_value k; ns_env k]) ks) ++ l) = flat_map (fun k => nskey_string ff32 k ++ [x20]) ks.
Proof.
  induction ks as [|k ks IH]; [reflexivity|]. cbn [length]. rewrite times_S, str_app. cbn [flat_map map app text]. rewrite <- IH.
  unfold nskey_string. rewrite joinstr_concat. cbn [concat]. rewrite app_nil_r, <- !app_assoc. reflexivity.
Qed.
Lemma fill_color_keys l : forall ks, fill (str (times (length ks) "% % % % % "))
    (map text (flat_map (fun k => map CFloat [cs_time k; cs_r k; cs_g k; cs_b k; cs_env k]) ks) ++ l) = flat_map (fun k => cskey_string ff32 k ++ [x20]) ks.
Proof.
  induction ks as [|k ks IH]; [reflexivity|]. cbn [length]. rewrite times_S, str_app. cbn [flat_map map app text]. rewrite <- IH.
  unfold cskey_string. rewrite joinstr_concat. cbn [concat]. rewrite app_nil_r, <- !app_assoc. reflexivity.
Qed.

(** The text of a value is the template of its type with the texts of its
    components. *)
Theorem C87_layout : forall v, go_value v -> no_reference v -> String_ v = fill (str (fst (layout v))) (map text (snd (layout v))).
Proof.
  fix IH 1. intros v G NR.
  destruct v; cbn [value_string layout fst snd map text].
  all: try (rewrite fill_one; reflexivity).
  - destruct b; reflexivity.
  - unfold udim_string. rewrite joinstr_concat. reflexivity.
  - unfold udim_string. rewrite !joinstr_concat. cbn [concat]. rewrite !app_nil_r, <- !app_assoc. reflexivity.
  - destruct origin as [a1 a2 a3], direction as [b1 b2 b3]. unfold vector3_string. rewrite !joinstr_concat. cbn [concat]. rewrite !app_nil_r, <- !app_assoc. reflexivity.
  - destruct right, top, back, left, bottom, front; vm_compute; reflexivity.
  - destruct x, y, z; vm_compute; reflexivity.
  - now rewrite fill_one, FormatInt_N.
  - rewrite joinstr_concat. reflexivity.
  - rewrite joinstr_concat. reflexivity.
  - destruct v as [a1 a2 a3]. unfold vector3_string. rewrite joinstr_concat. reflexivity.
  - destruct G as (_ & L & _). destruct pos as [px py pz].
    do 9 (destruct rot as [|? rot]; [discriminate|]). destruct rot; [|discriminate].
    unfold cframe_string. cbn [repeat upd rot_strings plus v3x v3y v3z]. rewrite !Join_cons by discriminate. cbn [strings_Join].
    cbn [fst snd]. unfold commas. cbn [repeat String.concat app map text]. cbn. rewrite app_nil_r. reflexivity.
  - contradiction.
  - rewrite joinstr_concat. reflexivity.
  - rewrite joinstr_concat. reflexivity.
  - rewrite sequence_loop_eq. cbn [app]. rewrite <- (fill_number_keys []). now rewrite app_nil_r.
  - rewrite sequence_loop_eq. cbn [app]. rewrite <- (fill_color_keys []). now rewrite app_nil_r.
  - rewrite joinstr_concat. reflexivity.
  - rewrite joinstr_concat. reflexivity.
  - destruct custom; [|reflexivity]. rewrite joinstr_concat. reflexivity.
  - rewrite joinstr_concat. cbn [map text fst snd]. rewrite !FormatInt_N. reflexivity.
  - destruct v as [v|]; [|reflexivity]. apply IH; assumption.
  - rewrite C37_uniqueid_text, !flat_map_app. set (a := flat_map _ (be_bytes 8 _)). set (b := flat_map _ (be_bytes 4 time)). set (c := flat_map _ (be_bytes 4 index)).
    change (fill (str "%%%") [a; b; c]) with (a ++ b ++ c ++ []). now rewrite app_nil_r.
  - rewrite <- !app_assoc. reflexivity.
Qed.
Theorem C87_reference : forall p, String_ (RReference p) = match p with O => str "<nil>" | _ => reference p end /\
  forall t v, String_ (ROptional t (Some v)) = String_ v /\ String_ (ROptional t None) = str "nil".
Proof. intros []; split; try reflexivity; intros; split; reflexivity. Qed.
End Text.

(** Integers are in decimal, without leading zeros. *)
Lemma dval_uint u : forall n, fold_left (fun n c => (10 * n + (Z.of_N (b2N c) - 0x30))%Z) (uint_bytes u) (Z.of_N n) = Z.of_N (uval n u).
Proof. induction u; intros n; cbn [uint_bytes fold_left uval]; [reflexivity|..]; rewrite <- IHu; f_equal; cbn [b2N]; vm_compute (b2N _); lia. Qed.
Lemma dval_FormatUint n : dval (FormatUint n) = Z.of_N n.
Proof. unfold dval, FormatUint. rewrite (dval_uint _ 0%N), uval_0, DecimalN.Unsigned.of_to. reflexivity. Qed.
Lemma FormatUint_head n : hd_error (FormatUint n) = Some x30 -> n = 0%N.
Proof.
  unfold FormatUint. intros H. destruct (N.to_uint n) as [|u|u|u|u|u|u|u|u|u|u] eqn:E; try discriminate H.
  pose proof (DecimalN.Unsigned.to_of (N.to_uint n)) as T. rewrite DecimalN.Unsigned.of_to, E in T. unfold Decimal.unorm in T.
  destruct (Decimal.nzhead (Decimal.D0 u)) as [|v|v|v|v|v|v|v|v|v|v] eqn:Z; try discriminate T.
  - rewrite <- E in T. apply (DecimalN.Unsigned.to_uint_inj n 0 T).
  - now apply DecimalFacts.nzhead_nonzero in Z.
Qed.
Lemma is_dec_digit l : forallb is_dec l = true -> Forall (fun c => In c (str "0123456789")) l.
Proof.
  rewrite forallb_forall, Forall_forall. intros H c Hc. specialize (H c Hc). destruct c; try discriminate H; cbn; tauto.
Qed.
Theorem C87_integers : forall z, exists ds, FormatInt z = (if (z <? 0)%Z then str "-" else []) ++ ds /\ digits ds /\ dval ds = Z.abs z /\
  (hd_error ds = Some x30 -> ds = str "0").
Proof.
  intros z. exists (FormatUint (Z.to_N (Z.abs z))). split; [|split; [|split]].
  - unfold FormatInt. destruct (Z.ltb_spec z 0); [|cbn [app]; f_equal; lia]. change (str "-") with [x2d]. cbn [app]. do 2 f_equal. lia.
  - split; [|apply is_dec_digit, FormatUint_dec]. destruct (FormatUint_cons (Z.to_N (Z.abs z))) as (c & r & -> & _). discriminate.
  - rewrite dval_FormatUint. lia.
  - intros H. apply FormatUint_head in H. now rewrite H.
Qed.

(** ** Numbers are seen in full *)
Lemma nan_bits mb eb f : (mb <> 0)%N -> not_a_number eb mb f = (inf_bits (FF (Z.of_N mb) (Z.of_N eb)) <? Z.of_N f mod sign_bit (FF (Z.of_N mb) (Z.of_N eb)))%Z.
Proof.
  intros Hm. unfold not_a_number, inf_bits, sign_bit. cbn [ff_mb ff_eb].
  replace (2 ^ (Z.of_N eb + Z.of_N mb))%Z with (Z.of_N (2 ^ mb * 2 ^ eb)) by (rewrite N2Z.inj_mul, !N2Z.inj_pow, <- Z.pow_add_r by lia; f_equal; lia).
  rewrite <- N2Z.inj_mod. rewrite N.mod_mul_r by (apply N.pow_nonzero; lia).
  pose proof (N.pow_nonzero 2 mb ltac:(lia)) as P1. pose proof (N.pow_nonzero 2 eb ltac:(lia)) as P2.
  set (A := (2 ^ mb)%N) in *. set (B := (2 ^ eb)%N) in *.
  replace (2 ^ Z.of_N mb)%Z with (Z.of_N A) by (unfold A; now rewrite N2Z.inj_pow).
  replace (2 ^ Z.of_N eb)%Z with (Z.of_N B) by (unfold B; now rewrite N2Z.inj_pow).
  pose proof (N.mod_upper_bound f A P1) as U1. pose proof (N.mod_upper_bound (f / A) B P2) as U2.
  set (x := (f mod A)%N) in *. set (y := ((f / A) mod B)%N) in *.
  destruct (N.eqb_spec y (B - 1)) as [E|E]; cbn [andb].
  - rewrite E. destruct (N.eqb_spec x 0) as [E2|E2]; cbn [negb]; symmetry; [apply Z.ltb_ge|apply Z.ltb_lt]; nia.
  - symmetry. apply Z.ltb_ge. assert (y <= B - 2)%N by lia. nia.
Qed.

Section Seen.
Variables (F : fformat) (txt : N -> bytes).
Hypothesis P : prints F txt.
Hypothesis (S0 : (0 < sign_bit F)%Z).
Lemma decimal_head t : decimal t -> exists c r, t = c :: r /\ (In c (str "0123456789") \/ c = x2d /\ exists d r', r = d :: r' /\ In d (str "0123456789")).
Proof.
  intros [neg ip [Hn Hi]|neg ip fp [Hn Hi] _].
  - destruct ip as [|d ip]; [contradiction|]. inversion Hi; subst. destruct neg.
    + exists x2d, (d :: ip). split; [reflexivity|]. right. split; [reflexivity|]. now exists d, ip.
    + exists d, ip. split; [reflexivity|]. now left.
  - destruct ip as [|d ip]; [contradiction|]. inversion Hi; subst. destruct neg.
    + exists x2d, (d :: ip ++ str "." ++ fp). split; [reflexivity|]. right. split; [reflexivity|]. now exists d, (ip ++ str "." ++ fp).
    + exists d, (ip ++ str "." ++ fp). split; [reflexivity|]. now left.
Qed.
Lemma digit_number c : In c (str "0123456789") -> In c number_chars.
Proof. unfold number_chars. cbn. tauto. Qed.
Lemma decimal_numeric t : decimal t -> numeric t.
Proof.
  assert (D : forall l, digits l -> numeric l). { intros l [_ H]. revert H. apply Forall_impl. exact digit_number. }
  assert (M : forall neg : bool, numeric (if neg then str "-" else [])).
  { intros []; [|constructor]. constructor; [unfold number_chars; cbn; tauto|constructor]. }
  intros [neg ip H|neg ip fp H H'].
  - apply Forall_app. split; [apply M|now apply D].
  - apply Forall_app. split; [apply M|]. apply Forall_app. split; [now apply D|]. constructor; [unfold number_chars; cbn; tauto|now apply D].
Qed.
Lemma classes f : (Z.of_N f mod sign_bit F < inf_bits F \/ Z.of_N f mod sign_bit F = inf_bits F \/ inf_bits F < Z.of_N f mod sign_bit F)%Z.
Proof. lia. Qed.
Lemma not_decimal t : t = str "NaN" \/ t = str "+Inf" \/ t = str "-Inf" -> ~ decimal t.
Proof.
  intros H D. apply decimal_head in D as (c & r & -> & D). destruct H as [H|[H|H]].
  - change (str "NaN") with [x4e; x61; x4e] in H. injection H as -> ->. cbn in D. destruct D as [D|[D _]]; [intuition discriminate|discriminate].
  - change (str "+Inf") with [x2b; x49; x6e; x66] in H. injection H as -> ->. cbn in D. destruct D as [D|[D _]]; [intuition discriminate|discriminate].
  - change (str "-Inf") with [x2d; x49; x6e; x66] in H. injection H as -> ->. cbn in D.
    destruct D as [D|(_ & d & r' & E & D)]; [intuition discriminate|]. injection E as <- _. cbn in D. intuition discriminate.
Qed.
Lemma prints_numeric f : (Z.of_N f < 2 * sign_bit F)%Z -> numeric (txt f).
Proof.
  intros R. destruct (classes f) as [C|[C|C]].
  - destruct (pr_dec F txt P f C R) as [D _]. now apply decimal_numeric.
  - rewrite (pr_inf F txt P f C). destruct (sign_bit F <=? Z.of_N f)%Z; repeat (constructor; [unfold number_chars; cbn; tauto|]); constructor.
  - rewrite (pr_nan F txt P f C). repeat (constructor; [unfold number_chars; cbn; tauto|]); constructor.
Qed.
Lemma special f : (inf_bits F <= Z.of_N f mod sign_bit F)%Z -> txt f = str "NaN" \/ txt f = str "+Inf" \/ txt f = str "-Inf".
Proof.
  intros H. destruct (classes f) as [C|[C|C]]; [lia| |].
  - rewrite (pr_inf F txt P f C). destruct (sign_bit F <=? Z.of_N f)%Z; auto.
  - left. exact (pr_nan F txt P f C).
Qed.
Lemma prints_inj f g : (Z.of_N f < 2 * sign_bit F)%Z -> (Z.of_N g < 2 * sign_bit F)%Z -> txt f = txt g ->
  f = g \/ ((inf_bits F < Z.of_N f mod sign_bit F)%Z /\ (inf_bits F < Z.of_N g mod sign_bit F)%Z).
Proof.
  intros Rf Rg E. destruct (classes f) as [C|C], (classes g) as [C'|C'].
  - left. destruct (pr_dec F txt P f C Rf) as (_ & v & V & R). destruct (pr_dec F txt P g C' Rg) as (_ & v' & V' & R'). rewrite E in V. congruence.
  - exfalso. destruct (pr_dec F txt P f C Rf) as (D & _). revert D. apply not_decimal. rewrite E. apply special. lia.
  - exfalso. destruct (pr_dec F txt P g C' Rg) as (D & _). revert D. apply not_decimal. rewrite <- E. apply special. lia.
  - destruct C as [C|C], C' as [C'|C'].
    + left. rewrite (pr_inf F txt P f C), (pr_inf F txt P g C') in E.
      pose proof (Z.div_mod (Z.of_N f) (sign_bit F) ltac:(lia)) as A. pose proof (Z.div_mod (Z.of_N g) (sign_bit F) ltac:(lia)) as B.
      rewrite C in A. rewrite C' in B. pose proof (Z.mod_pos_bound (Z.of_N f) (sign_bit F) S0) as M.
      assert (forall h, 0 <= h < 2 * sign_bit F -> h / sign_bit F = if sign_bit F <=? h then 1 else 0)%Z as Q.
      { intros h Hh. destruct (Z.leb_spec (sign_bit F) h); [|apply Z.div_small; lia]. symmetry. apply Z.div_unique with (h - sign_bit F)%Z; lia. }
      rewrite Q in A, B by lia. destruct (sign_bit F <=? Z.of_N f)%Z, (sign_bit F <=? Z.of_N g)%Z; try discriminate E; lia.
    + exfalso. rewrite (pr_inf F txt P f C), (pr_nan F txt P g C') in E. destruct (sign_bit F <=? Z.of_N f)%Z; discriminate.
    + exfalso. rewrite (pr_inf F txt P g C'), (pr_nan F txt P f C) in E. destruct (sign_bit F <=? Z.of_N g)%Z; discriminate.
    + right. auto.
Qed.
End Seen.

(** ** C88 *)
Section Same.
Variables (ff32 ff64 : N -> bytes) (reference : ptr -> bytes).
Hypothesis P32 : prints F32 ff32.
Hypothesis P64 : prints F64 ff64.
Notation String_ := (value_string ff32 ff64 reference).

Lemma range32 f : f32 f -> (Z.of_N f < 2 * sign_bit F32)%Z.
Proof. unfold f32. change (2 * sign_bit F32)%Z with (Z.of_N (2 ^ 32)). lia. Qed.
Lemma range64 f : f64 f -> (Z.of_N f < 2 * sign_bit F64)%Z.
Proof. unfold f64. change (2 * sign_bit F64)%Z with (Z.of_N (2 ^ 64)). lia. Qed.
Lemma nan32_bits f : not_a_number 8 23 f = (inf_bits F32 <? Z.of_N f mod sign_bit F32)%Z.
Proof. exact (nan_bits 23 8 f ltac:(discriminate)). Qed.
Lemma nan64_bits f : not_a_number 11 52 f = (inf_bits F64 <? Z.of_N f mod sign_bit F64)%Z.
Proof. exact (nan_bits 52 11 f ltac:(discriminate)). Qed.
Lemma same32 f g : f32 f -> f32 g -> (ff32 f = ff32 g <-> plain32 f = plain32 g).
Proof.
  intros Hf Hg. split.
  - intros E. destruct (prints_inj F32 ff32 P32 ltac:(reflexivity) f g (range32 f Hf) (range32 g Hg) E) as [->|[A B]]; [reflexivity|].
    unfold plain32. rewrite !nan32_bits. apply Z.ltb_lt in A, B. now rewrite A, B.
  - unfold plain32. destruct (not_a_number 8 23 f) eqn:A, (not_a_number 8 23 g) eqn:B; intros E.
    + rewrite nan32_bits in A, B. apply Z.ltb_lt in A, B. now rewrite (pr_nan _ _ P32 f A), (pr_nan _ _ P32 g B).
    + subst g. discriminate B.
    + subst f. discriminate A.
    + now subst.
Qed.
Lemma same64 f g : f64 f -> f64 g -> (ff64 f = ff64 g <-> plain64 f = plain64 g).
Proof.
  intros Hf Hg. split.
  - intros E. destruct (prints_inj F64 ff64 P64 ltac:(reflexivity) f g (range64 f Hf) (range64 g Hg) E) as [->|[A B]]; [reflexivity|].
    unfold plain64. rewrite !nan64_bits. apply Z.ltb_lt in A, B. now rewrite A, B.
  - unfold plain64. destruct (not_a_number 11 52 f) eqn:A, (not_a_number 11 52 g) eqn:B; intros E.
    + rewrite nan64_bits in A, B. apply Z.ltb_lt in A, B. now rewrite (pr_nan _ _ P64 f A), (pr_nan _ _ P64 g B).
    + subst g. discriminate B.
    + subst f. discriminate A.
    + now subst.
Qed.
Lemma numeric32 f : f32 f -> numeric (ff32 f).
Proof. intros H. apply (prints_numeric F32 ff32 P32 eq_refl). now apply range32. Qed.
Lemma numeric64 f : f64 f -> numeric (ff64 f).
Proof. intros H. apply (prints_numeric F64 ff64 P64 eq_refl). now apply range64. Qed.

(** Templates in which every number is followed by something else *)
Fixpoint apart (t : bytes) : bool :=
  match t with
  | [] => true
  | x25 :: t => match t with [] => true | c :: _ => negb (Byte.eqb c x25) && negb (existsb (Byte.eqb c) number_chars) && apart t end
  | _ :: t => apart t
  end.
Fixpoint holes (t : bytes) : nat := match t with [] => 0 | x25 :: t => S (holes t) | _ :: t => holes t end.
Lemma not_in_chars c : existsb (Byte.eqb c) number_chars = false -> ~ In c number_chars.
Proof.
  intros H I. assert (E : existsb (Byte.eqb c) number_chars = true).
  { apply existsb_exists. exists c. split; [exact I|]. now apply Byte.byte_dec_lb. }
  congruence.
Qed.
Lemma fill_cut t : apart t = true -> forall a b, length a = holes t -> length b = holes t -> Forall numeric a -> Forall numeric b -> fill t a = fill t b -> a = b.
Proof.
  induction t as [|c t IH]; intros A a b La Lb Na Nb H.
  - destruct a, b; try discriminate; reflexivity.
  - assert (D : {c = x25} + {c <> x25}) by apply Byte.byte_eq_dec. destruct D as [->|D].
    + cbn [holes] in La, Lb. destruct a as [|x a], b as [|y b]; try discriminate. cbn [fill] in H. injection La as La. injection Lb as Lb.
      inversion Na as [|? ? Nx Na']; subst. inversion Nb as [|? ? Ny Nb']; subst.
      assert (E : forall l, ends (fill t l) /\ apart t = true).
      { intros l. cbn [apart] in A. destruct t as [|c t]; [split; [exact I|reflexivity]|]. apply andb_prop in A as [A A']. apply andb_prop in A as [A1 A2].
        split; [|exact A']. apply negb_true_iff in A1, A2. replace (fill (c :: t) l) with (c :: fill t l); [now apply not_in_chars|]. destruct c; try reflexivity. discriminate A1. }
      apply numeric_cut in H; [|assumption|assumption|apply E|apply E]. destruct H as [-> H]. f_equal. apply IH; try assumption. apply (E []).
    + assert (G : forall l, fill (c :: t) l = c :: fill t l) by (intros l; destruct c; try reflexivity; contradiction).
      rewrite !G in H. apply (f_equal (@tl byte)) in H. cbn [tl] in H. apply IH; try assumption; destruct c; try assumption; contradiction.
Qed.

Ltac nums := repeat (apply Forall_cons; [first [apply numeric32; assumption|apply numeric64; assumption|apply numeric_int|apply numeric_uint]|]); apply Forall_nil.
Ltac split_all := repeat match goal with H : _ /\ _ |- _ => destruct H end.
Ltac read_off H := injection H; clear H; intros.
Ltac seen_eq := repeat match goal with
  | E : ff32 ?a = ff32 ?b |- _ => apply (same32 a b) in E; [|assumption|assumption]
  | E : ff64 ?a = ff64 ?b |- _ => apply (same64 a b) in E; [|assumption|assumption]
  | E : FormatInt ?a = FormatInt ?b |- _ => apply FormatInt_inj in E
  end.
Ltac text_eq := repeat match goal with
  | E : plain32 ?a = plain32 ?b |- _ => apply (same32 a b) in E; [|assumption|assumption]
  | E : plain64 ?a = plain64 ?b |- _ => apply (same64 a b) in E; [|assumption|assumption]
  end.
(** Values that are a template with numbers *)
Ltac numbers G G' :=
  split;
  [ intros H; rewrite (C87_layout _ _ _ _ G I), (C87_layout _ _ _ _ G' I) in H; cbn [layout fst snd] in H;
    apply fill_cut in H; [|reflexivity|reflexivity|reflexivity|cbn [map text]; cbn [go_value] in G, G'; unfold wf_vec3 in *; split_all; nums|
      cbn [map text]; cbn [go_value] in G, G'; unfold wf_vec3 in *; split_all; nums];
    cbn [map text app] in H; cbn [go_value] in G, G'; unfold wf_vec3 in *; split_all; read_off H; seen_eq; cbn [seen]; unfold plain_vec3; cbn [v3x v3y v3z]
  | ].

Lemma iff_arg {A B} (C : A -> B) a b : (forall x y, C x = C y -> x = y) -> (a = b <-> C a = C b).
Proof. intros I. split; [now intros ->|apply I]. Qed.
(** Equal plain numbers have equal texts *)
Ltac back := intros H; cbn [seen] in H; cbn [go_value] in *; unfold wf_vec3, plain_vec3 in *; split_all; injection H; intros; subst; text_eq;
  cbn [value_string]; unfold udim_string, vector3_string; cbn [v3x v3y v3z] in *;
  repeat match goal with E : ff32 _ = ff32 _ |- _ => rewrite E; clear E | E : ff64 _ = ff64 _ |- _ => rewrite E; clear E end; reflexivity.
Ltac forth G G' := intros H; rewrite (C87_layout _ _ _ _ G I), (C87_layout _ _ _ _ G' I) in H; cbn [layout fst snd] in H;
    apply fill_cut in H; [|reflexivity|reflexivity|reflexivity|cbn [map text]; cbn [go_value] in G, G'; unfold wf_vec3 in *; cbn [v3x v3y v3z] in *; split_all; nums|
      cbn [map text]; cbn [go_value] in G, G'; unfold wf_vec3 in *; cbn [v3x v3y v3z] in *; split_all; nums];
    cbn [map text app] in H; cbn [go_value] in G, G'; unfold wf_vec3 in *; cbn [v3x v3y v3z] in *; split_all; read_off H; seen_eq; cbn [seen]; unfold plain_vec3; cbn [v3x v3y v3z];
    subst; repeat match goal with E : plain32 _ = plain32 _ |- _ => rewrite E; clear E | E : plain64 _ = plain64 _ |- _ => rewrite E; clear E end; reflexivity.
Definition names_seen (names : list String.string) (s : bytes) : list bool := map (fun n => existsb (fun i => bytes_eqb (firstn (length (str n)) (skipn i s)) (str n)) (seq 0 (length s))) names.
Lemma faces_seen r t b l o f : names_seen ["Right"; "Top"; "Back"; "Left"; "Bottom"; "Front"]%string (faces_string r t b l o f) = [r; t; b; l; o; f].
Proof. destruct r, t, b, l, o, f; vm_compute; reflexivity. Qed.
Lemma axes_seen x y z : names_seen ["X"; "Y"; "Z"]%string (axes_string x y z) = [x; y; z].
Proof. destruct x, y, z; vm_compute; reflexivity. Qed.

Lemma map_same32 l : forall l', Forall f32 l -> Forall f32 l' -> (map ff32 l = map ff32 l' <-> map plain32 l = map plain32 l').
Proof.
  induction l as [|x l IH]; intros [|y l'] F F'; cbn [map]; [tauto|split; discriminate..|].
  inversion F as [|? ? Fx Fl]; subst. inversion F' as [|? ? Fy Fl']; subst. split; intros H; injection H as H1 H2; f_equal.
  - now apply same32.
  - now apply IH.
  - now apply same32.
  - now apply IH.
Qed.
Lemma map_numeric l : Forall f32 l -> Forall numeric (map ff32 l).
Proof. intros H. apply Forall_map. revert H. apply Forall_impl. exact numeric32. Qed.
Lemma same_cframe p rot p' rot' : go_value (RCFrame p rot) -> go_value (RCFrame p' rot') ->
  String_ (RCFrame p rot) = String_ (RCFrame p' rot') <-> seen (RCFrame p rot) = seen (RCFrame p' rot').
Proof.
  intros G G'. rewrite (C87_layout _ _ _ _ G I), (C87_layout _ _ _ _ G' I). destruct p as [x y z], p' as [x' y' z']. cbn [layout fst snd].
  rewrite !map_map. cbn [text]. destruct G as ((A1 & A2 & A3) & L & R), G' as ((B1 & B2 & B3) & L' & R'). cbn [v3x v3y v3z] in *.
  assert (Q : forall u v w r, map (fun f => ff32 f) (u :: v :: w :: r) = map ff32 (u :: v :: w :: r)) by reflexivity.
  cbn [app]. rewrite !Q.
  assert (E : map ff32 (x :: y :: z :: rot) = map ff32 (x' :: y' :: z' :: rot') <-> seen (RCFrame (Vec3 x y z) rot) = seen (RCFrame (Vec3 x' y' z') rot')).
  { rewrite map_same32 by (repeat constructor; assumption). cbn [seen map]. unfold plain_vec3. cbn [v3x v3y v3z].
    split; intros H; injection H; intros; congruence. }
  rewrite <- E. split; [|now intros ->]. apply fill_cut.
  - vm_compute. reflexivity.
  - rewrite map_length. cbn [length]. rewrite L. vm_compute. reflexivity.
  - rewrite map_length. cbn [length]. rewrite L'. vm_compute. reflexivity.
  - apply map_numeric. repeat constructor; assumption.
  - apply map_numeric. repeat constructor; assumption.
Qed.
Lemma ends_space r : ends (space ++ r).
Proof. ends_tac. Qed.
Lemma ends_20 r : ends (x20 :: r).
Proof. ends_tac. Qed.
Lemma numeric_cut32 f g r s : f32 f -> f32 g -> ends r -> ends s -> ff32 f ++ r = ff32 g ++ s -> ff32 f = ff32 g /\ r = s.
Proof. intros. apply numeric_cut; auto using numeric32. Qed.
Lemma nskey_form k : nskey_string ff32 k ++ [x20] = ff32 (ns_time k) ++ x20 :: ff32 (ns_value k) ++ x20 :: ff32 (ns_env k) ++ [x20].
Proof. unfold nskey_string. rewrite joinstr_concat. cbn [concat]. rewrite app_nil_r, <- !app_assoc. reflexivity. Qed.
Lemma cskey_form k : cskey_string ff32 k ++ [x20] =
  ff32 (cs_time k) ++ x20 :: ff32 (cs_r k) ++ x20 :: ff32 (cs_g k) ++ x20 :: ff32 (cs_b k) ++ x20 :: ff32 (cs_env k) ++ [x20].
Proof. unfold cskey_string. rewrite joinstr_concat. cbn [concat]. rewrite app_nil_r, <- !app_assoc. reflexivity. Qed.
Lemma keys_same {K} (key : K -> bytes) (pl : K -> K) (Pk : K -> Prop) :
  (forall k, key k ++ [x20] <> []) ->
  (forall k k' r s, Pk k -> Pk k' -> (key k ++ [x20]) ++ r = (key k' ++ [x20]) ++ s -> pl k = pl k' /\ r = s) ->
  (forall k k', Pk k -> Pk k' -> pl k = pl k' -> key k = key k') ->
  forall ks ks', Forall Pk ks -> Forall Pk ks' ->
  (flat_map (fun k => key k ++ [x20]) ks = flat_map (fun k => key k ++ [x20]) ks' <-> map pl ks = map pl ks').
Proof.
  intros Hne Hcut Hback. induction ks as [|k ks IH]; intros [|k' ks'] A B; cbn [flat_map map].
  - tauto.
  - split; [|discriminate]. intros H. symmetry in H. apply app_eq_nil in H as [H _]. now apply Hne in H.
  - split; [|discriminate]. intros H. apply app_eq_nil in H as [H _]. now apply Hne in H.
  - inversion A as [|? ? Ak Aks]; subst. inversion B as [|? ? Bk Bks]; subst. split; intros H.
    + apply Hcut in H; [|assumption|assumption]. destruct H as [E H]. f_equal; [exact E|]. now apply IH.
    + injection H as E H. rewrite (Hback k k' Ak Bk E). f_equal. now apply IH.
Qed.
Lemma key_not_empty (a : bytes) : a ++ [x20] <> [].
Proof. destruct a; discriminate. Qed.
Ltac cut_key H := match type of H with
  | ff32 _ ++ _ = _ => apply numeric_cut32 in H; [|assumption|assumption|apply ends_20|apply ends_20]; let E := fresh "E" in destruct H as [E H]; apply same32 in E; [|assumption|assumption]
  | x20 :: _ = _ => apply (f_equal (@tl byte)) in H; cbn [tl] in H end.
Lemma cut_last (a b s t : bytes) : ~ In x20 s -> ~ In x20 t -> a ++ x20 :: s = b ++ x20 :: t -> a = b /\ s = t.
Proof.
  intros Hs Ht H. apply (f_equal (@rev byte)) in H. rewrite !rev_app_distr in H. cbn [rev] in H. rewrite <- !app_assoc in H. cbn [app] in H.
  assert (G : forall u v r q : bytes, ~ In x20 u -> ~ In x20 v -> u ++ x20 :: r = v ++ x20 :: q -> u = v /\ r = q).
  { induction u as [|c u IH]; intros [|d v] r q Hu Hv E; cbn [app] in E.
    - injection E as ->. auto.
    - exfalso. apply Hv. left. now injection E.
    - exfalso. apply Hu. left. now injection E.
    - injection E as -> E. destruct (IH v r q) as [-> ->]; auto; intros F; [apply Hu|apply Hv]; now right. }
  apply G in H; [|now rewrite <- in_rev|now rewrite <- in_rev]. destruct H as [E F].
  split; [rewrite <- (rev_involutive a), F; apply rev_involutive|rewrite <- (rev_involutive s), E; apply rev_involutive].
Qed.
Definition weights : list N := [100; 200; 300; 400; 500; 600; 700; 800; 900]%N.
Lemma weight_cases w : In w weights \/ (str (fontweight_string w) = str "<invalid>" /\ seen_weight w = 0%N).
Proof.
  unfold seen_weight, fontweight_string. fold weights. destruct (existsb (N.eqb w) weights) eqn:E.
  - left. apply existsb_exists in E as (x & I & E). apply N.eqb_eq in E. now subst.
  - right. cbn [existsb weights] in E. repeat (apply orb_false_iff in E as [?E E]). rewrite ?E0, ?E1, ?E2, ?E3, ?E4, ?E5, ?E6, ?E7, ?E8. auto.
Qed.
Lemma same_weight w w' : str (fontweight_string w) = str (fontweight_string w') <-> seen_weight w = seen_weight w'.
Proof.
  destruct (weight_cases w) as [I|[A B]], (weight_cases w') as [I'|[A' B']]; unfold weights in *; cbn [In] in *; rewrite ?A, ?A', ?B, ?B';
    repeat match goal with H : _ \/ _ |- _ => destruct H; subst | H : False |- _ => contradiction end;
    split; intros H; try reflexivity; exfalso; vm_compute in H; discriminate H.
Qed.
Lemma style_cases s : s = x00 \/ s = x01 \/ (str (fontstyle_string (b2N s)) = str "<invalid>" /\ seen_style s = xff).
Proof. destruct s; try (right; right; split; reflexivity); auto. Qed.
Lemma same_style s s' : str (fontstyle_string (b2N s)) = str (fontstyle_string (b2N s')) <-> seen_style s = seen_style s'.
Proof.
  destruct (style_cases s) as [I|[I|[A B]]], (style_cases s') as [I'|[I'|[A' B']]]; subst; rewrite ?A, ?A', ?B, ?B';
    split; intros H; try reflexivity; exfalso; vm_compute in H; discriminate H.
Qed.
Lemma same_font f w s c f' w' s' c' : String_ (RFont f w s c) = String_ (RFont f' w' s' c') <-> seen (RFont f w s c) = seen (RFont f' w' s' c').
Proof.
  cbn [value_string seen]. split.
  - intros H. change (str " }") with [x20; x7d] in H. apply app_inv_tail in H.
    change (str ", Style = ") with (str ", Style =" ++ [x20]) in H. change (str ", Weight = ") with (str ", Weight =" ++ [x20]) in H.
    assert (Q : forall a b c : bytes, (a ++ b ++ [x20]) ++ c = (a ++ b) ++ x20 :: c) by (intros; now rewrite <- !app_assoc).
    rewrite !Q in H. apply cut_last in H; [|apply fontstyle_word|apply fontstyle_word]. destruct H as [H Es]. apply app_inv_tail in H.
    apply cut_last in H; [|apply fontweight_word|apply fontweight_word]. destruct H as [H Ew]. apply app_inv_tail, app_inv_head in H. subst f'.
    apply same_weight in Ew. apply same_style in Es. now rewrite Ew, Es.
  - intros H. injection H as -> Ew Es. apply same_weight in Ew. apply same_style in Es. now rewrite Ew, Es.
Qed.
Theorem C88_same_text : forall v w, simple v -> rtype v = rtype w -> go_value v -> go_value w -> (String_ v = String_ w <-> seen v = seen w).
Proof.
  intros v w Sv T G G'. destruct v; destruct w; try discriminate T; try contradiction Sv; clear T Sv.
  - apply (iff_arg RString). now intros x y [= ->].
  - apply (iff_arg RBinaryString). now intros x y [= ->].
  - apply (iff_arg RProtectedString). now intros x y [= ->].
  - apply (iff_arg RContent). now intros x y [= ->].
  - destruct b, b0; split; try reflexivity; intros H; discriminate H.
  - cbn [seen value_string]. split; [intros H; now rewrite (FormatInt_inj _ _ H)|now intros [= ->]].
  - split; [forth G G'|back].
  - split; [forth G G'|back].
  - split; [forth G G'|back].
  - split; [forth G G'|back].
  - destruct origin, direction, origin0, direction0. split; [forth G G'|back].
  - cbn [seen value_string]. split; [|now intros [= -> -> -> -> -> ->]]. intros H.
    apply (f_equal (names_seen ["Right"; "Top"; "Back"; "Left"; "Bottom"; "Front"]%string)) in H. rewrite !faces_seen in H. now injection H as -> -> -> -> -> ->.
  - cbn [seen value_string]. split; [|now intros [= -> -> ->]]. intros H.
    apply (f_equal (names_seen ["X"; "Y"; "Z"]%string)) in H. rewrite !axes_seen in H. now injection H as -> -> ->.
  - cbn [seen value_string]. split; [intros H; now rewrite (FormatUint_inj _ _ H)|now intros [= ->]].
  - split; [forth G G'|back].
  - split; [forth G G'|back].
  - destruct v as [? ? ?], v0 as [? ? ?]. split; [forth G G'|back].
  - now apply same_cframe.
  - cbn [seen value_string]. split; [intros H; apply FormatInt_inj in H; f_equal; lia|now intros [= ->]].
  - split; [forth G G'|back].
  - split; [forth G G'|back].
  - cbn [value_string seen]. rewrite !sequence_loop_eq. cbn [app]. etransitivity; [eapply (keys_same (nskey_string ff32) _ _ (fun k => key_not_empty _))|].
    3: exact G. 3: exact G'. 3: apply (iff_arg RNumberSequence); now intros x y [= ->].
    + intros k k' r s (? & ? & ?) (? & ? & ?) HH. rewrite !nskey_form in HH. rewrite <- !app_assoc in HH. cbn [app] in HH. rewrite <- !app_assoc in HH. cbn [app] in HH.
      rewrite <- !app_assoc in HH. cbn [app] in HH. repeat cut_key HH. split; [congruence|exact HH].
    + intros k k' (? & ? & ?) (? & ? & ?) HH. injection HH as E1 E2 E3. apply same32 in E1, E2, E3; try assumption. unfold nskey_string. now rewrite E1, E2, E3.
  - cbn [value_string seen]. rewrite !sequence_loop_eq. cbn [app]. etransitivity; [eapply (keys_same (cskey_string ff32) _ _ (fun k => key_not_empty _))|].
    3: exact G. 3: exact G'. 3: apply (iff_arg RColorSequence); now intros x y [= ->].
    + intros k k' r s (? & ? & ? & ? & ?) (? & ? & ? & ? & ?) HH. rewrite !cskey_form in HH. do 5 (rewrite <- !app_assoc in HH; cbn [app] in HH).
      repeat cut_key HH. split; [congruence|exact HH].
    + intros k k' (? & ? & ? & ? & ?) (? & ? & ? & ? & ?) HH. injection HH as E1 E2 E3 E4 E5. apply same32 in E1, E2, E3, E4, E5; try assumption. unfold cskey_string. now rewrite E1, E2, E3, E4, E5.
  - split; [forth G G'|back].
  - split; [forth G G'|back].
  - assert (N : forall d f e fw ew, In x2c (String_ (RPhysicalProperties true d f e fw ew))).
    { intros. cbn [value_string]. rewrite joinstr_concat. cbn [concat]. apply in_or_app. right. apply in_or_app. left. cbn. auto. }
    assert (N' : forall d f e fw ew, ~ In x2c (String_ (RPhysicalProperties false d f e fw ew))) by (intros; cbn; intuition discriminate).
    destruct custom, custom0.
    + split; [forth G G'|back].
    + split; [|discriminate]. intros H. exfalso. eapply N'. rewrite <- H. apply N.
    + split; [|discriminate]. intros H. exfalso. eapply N'. rewrite H. apply N.
    + split; reflexivity.
  - split; [|now intros [= -> -> ->]]. intros H. rewrite (C87_layout _ _ _ _ G I), (C87_layout _ _ _ _ G' I) in H. cbn [layout fst snd] in H.
    apply fill_cut in H; [|reflexivity|reflexivity|reflexivity|cbn [map text]; nums|cbn [map text]; nums].
    cbn [map text] in H. injection H as E1 E2 E3. apply FormatInt_inj, N2Z.inj, b2N_inj in E1, E2, E3. now subst.
  - cbn [seen value_string]. split; [intros H; now rewrite (FormatInt_inj _ _ H)|now intros [= ->]].
  - apply (iff_arg RSharedString). now intros x y [= ->].
  - cbn [seen value_string]. split; [|now intros [= -> -> ->]]. intros H. destruct G as (? & ? & ?), G' as (? & ? & ?).
    apply C37_uniqueid_injective in H; try assumption. destruct H as (-> & -> & ->). reflexivity.
  - apply same_font.
Qed.
End Same.

(** ** The promise can be kept: the fewest digits of the correctly rounded ones
    that read back *)
Section Shortest.
Variables (F : fformat) (most : nat).
Definition digits_text (k : nat) (a : Z) : bytes :=
  if (a =? 0)%Z then [x30]
  else let '(q, dp) := round_digits (Z.of_nat k) (f_val F a) in let '(q, nd) := strip k q in fmtF (digs nd q) dp.
Definition reads (t : bytes) (f : N) : bool :=
  match dec_parse t with Some v => match round_to F v with Some g => (g =? f)%N | None => false end | None => false end.
Definition shortest (f : N) : bytes :=
  let a := (Z.of_N f mod sign_bit F)%Z in
  let neg := (sign_bit F <=? Z.of_N f)%Z in
  if (inf_bits F <? a)%Z then str "NaN"
  else if (a =? inf_bits F)%Z then (if neg then str "-Inf" else str "+Inf")
  else let txt k := (if neg then str "-" else []) ++ digits_text k a in
       match find (fun k => reads (txt k) f) (seq 1 most) with Some k => txt k | None => txt most end.

Hypothesis (Hmb : (1 <= ff_mb F)%Z) (Heb : (2 <= ff_eb F)%Z).
Hypothesis (Hm : 2 <= most) (Henough : (2 ^ (ff_mb F + 1) < 5 * 10 ^ (Z.of_nat most - 2))%Z).
Lemma digits_of l : l <> [] -> forallb is_digit l = true -> digits l.
Proof. intros H E. split; [exact H|]. now apply is_dec_digit. Qed.
Lemma fmtF_decimal (neg : bool) D dp : forallb is_digit D = true -> D <> [] -> decimal ((if neg then str "-" else []) ++ fmtF D dp).
Proof.
  intros HD Hne. unfold fmtF. set (p := Z.to_nat dp).
  assert (HFS : forallb is_digit (firstn p D) = true /\ forallb is_digit (skipn p D) = true).
  { rewrite <- (firstn_skipn p D) in HD. rewrite forallb_app in HD. now apply andb_prop in HD. }
  assert (Lp : (0 < length D)) by (destruct D; [contradiction|cbn; lia]).
  destruct (Z.ltb_spec 0 dp) as [L|L]; destruct (Z.ltb_spec dp (Z.of_nat (length D))) as [M|M].
  - apply dec_point; apply digits_of.
    + intros E. apply (f_equal (@length byte)) in E. rewrite app_length, firstn_length, repeat_length in E. cbn in E. lia.
    + now rewrite forallb_app, zeros_digits, (proj1 HFS).
    + intros E. apply (f_equal (@length byte)) in E. rewrite app_length, skipn_length in E. cbn in E. lia.
    + now rewrite forallb_app, zeros_digits, (proj2 HFS).
  - rewrite app_nil_r. apply dec_whole. apply digits_of.
    + intros E. apply (f_equal (@length byte)) in E. rewrite app_length, firstn_length, repeat_length in E. cbn in E. lia.
    + now rewrite forallb_app, zeros_digits, (proj1 HFS).
  - apply dec_point; apply digits_of.
    + discriminate.
    + reflexivity.
    + intros E. apply (f_equal (@length byte)) in E. rewrite app_length, skipn_length in E. cbn in E. lia.
    + now rewrite forallb_app, zeros_digits, (proj2 HFS).
  - exfalso. lia.
Qed.

Lemma digits_text_spec k a : 1 <= k -> (0 <= a < inf_bits F)%Z -> (forall neg : bool, decimal ((if neg then str "-" else []) ++ digits_text k a)) /\
  exists d x, form (digits_text k a) d x /\ (a = 0 -> d = 0)%Z /\
    (0 < a -> d <> 0 /\ let '(q, dp) := round_digits (Z.of_nat k) (f_val F a) in inject_Z d * pow 10 x == inject_Z q * pow 10 (dp - Z.of_nat k))%Z%Q.
Proof.
  intros Hk Ha. unfold digits_text. destruct (Z.eqb_spec a 0) as [->|Na].
  - split; [intros neg; apply dec_whole; now apply digits_of|]. exists 0%Z, 0%Z. split; [|split; [reflexivity|intros H; exfalso; apply (Z.lt_irrefl 0), H]].
    apply (Form _ _ _ [x30] [] None); try reflexivity. discriminate.
  - pose proof (f_val_pos F Hmb Heb a ltac:(lia)) as Hv. pose proof (round_digits_spec (Z.of_nat k) (f_val F a) ltac:(lia) Hv) as RD.
    destruct (round_digits (Z.of_nat k) (f_val F a)) as [q dp]. destruct RD as (R1 & R2 & _).
    assert (Hq : (0 < q < 10 ^ Z.of_nat k)%Z).
    { split; [|lia]. apply Z.lt_le_trans with (10 ^ (Z.of_nat k - 1))%Z; [apply Z.pow_pos_nonneg; lia|lia]. }
    pose proof (strip_spec k q Hq) as HS. destruct (strip k q) as [q' nd]. destruct HS as (S1 & S2 & S3).
    destruct (digs_spec nd q' ltac:(lia)) as (D1 & D2 & D3). rewrite Z.mod_small in D3 by lia.
    assert (Hval : (inject_Z (dval (digs nd q')) * pow 10 (dp - Z.of_nat (length (digs nd q'))) == inject_Z q * pow 10 (dp - Z.of_nat k))%Q).
    { rewrite D2, D3, S3, inject_Z_mult, <- (pow_Z 10 (Z.of_nat (k - nd))) by lia. rewrite <- Qmult_assoc, <- pow_plus by lia.
      replace (Z.of_nat (k - nd) + (dp - Z.of_nat k))%Z with (dp - Z.of_nat nd)%Z by lia. reflexivity. }
    assert (Hne : digs nd q' <> []) by (intros E; apply (f_equal (@length byte)) in E; rewrite D2 in E; cbn in E; lia).
    split; [intros neg; now apply fmtF_decimal|].
    destruct (fmtF_form (digs nd q') dp D1 ltac:(intros; contradiction)) as (d & x & H1 & H2). exists d, x. split; [exact H1|]. split; [lia|]. intros _.
    rewrite Hval in H2. split; [|exact H2]. intros ->.
    assert (0 < inject_Z q * pow 10 (dp - Z.of_nat k))%Q as G by (apply Qmult_lt_0_compat; [change 0%Q with (inject_Z 0); rewrite <- Zlt_Qlt; apply Hq|apply pow_pos; lia]).
    rewrite <- H2 in G. change (inject_Z 0) with 0%Q in G. lra.
Qed.
Lemma sign_again f : (Z.of_N f < 2 * sign_bit F)%Z -> (0 < sign_bit F)%Z ->
  Z.to_N (Z.of_N f mod sign_bit F + (if sign_bit F <=? Z.of_N f then sign_bit F else 0))%Z = f.
Proof.
  intros R S0. destruct (Z.leb_spec (sign_bit F) (Z.of_N f)) as [L|L].
  - replace (Z.of_N f) with (Z.of_N f - sign_bit F + 1 * sign_bit F)%Z at 1 by lia. rewrite Z.mod_add, Z.mod_small by lia. lia.
  - rewrite Z.mod_small by lia. lia.
Qed.
Lemma most_reads f : (Z.of_N f < 2 * sign_bit F)%Z -> (Z.of_N f mod sign_bit F < inf_bits F)%Z ->
  reads ((if (sign_bit F <=? Z.of_N f)%Z then str "-" else []) ++ digits_text most (Z.of_N f mod sign_bit F)) f = true.
Proof.
  intros R C. assert (S0 : (0 < sign_bit F)%Z) by (apply Z.pow_pos_nonneg; lia). pose proof (Z.mod_pos_bound (Z.of_N f) (sign_bit F) S0) as B. pose proof (sign_again f R S0) as SA.
  set (a := (Z.of_N f mod sign_bit F)%Z) in *. set (neg := (sign_bit F <=? Z.of_N f)%Z) in *.
  destruct (digits_text_spec most a ltac:(lia) ltac:(lia)) as (_ & d & x & FM & Z0 & Zp).
  unfold reads. change (str "-") with [x2d]. rewrite (form_parse neg _ _ _ FM). unfold round_to.
  destruct (Z.eq_dec a 0) as [Ea|Ea].
  - rewrite (Z0 Ea). cbn [Z.eqb]. rewrite Ea in SA. cbn in SA. rewrite SA. apply N.eqb_refl.
  - destruct (Zp ltac:(lia)) as [Hd Hq]. destruct (Z.eqb_spec d 0); [contradiction|].
    pose proof (digits_enough F Hmb Heb (Z.of_nat most) a ltac:(lia) Henough ltac:(lia) ltac:(lia)) as G.
    pose proof (q_pos (Z.of_nat most) F a ltac:(lia) Hmb Heb ltac:(lia)) as Pq.
    destruct (round_digits (Z.of_nat most) (f_val F a)) as [q dp].
    rewrite (round_pos_comp F _ _ (pos_eq d x q dp _ Hd Pq Hq) Hq), G. cbn [option_map]. rewrite SA. apply N.eqb_refl.
Qed.
Theorem shortest_prints : prints F shortest.
Proof.
  assert (S0 : (0 < sign_bit F)%Z) by (apply Z.pow_pos_nonneg; lia).
  constructor; intros f C; unfold shortest.
  - apply Z.ltb_lt in C. now rewrite C.
  - destruct (Z.ltb_spec (inf_bits F) (Z.of_N f mod sign_bit F)); [lia|]. rewrite C, Z.eqb_refl. reflexivity.
  - intros R. destruct (Z.ltb_spec (inf_bits F) (Z.of_N f mod sign_bit F)); [lia|]. destruct (Z.eqb_spec (Z.of_N f mod sign_bit F) (inf_bits F)); [lia|].
    pose proof (Z.mod_pos_bound (Z.of_N f) (sign_bit F) S0) as B. cbv zeta.
    set (txt k := (if (sign_bit F <=? Z.of_N f)%Z then str "-" else []) ++ digits_text k (Z.of_N f mod sign_bit F)).
    assert (Q : forall k, 1 <= k -> reads (txt k) f = true -> decimal (txt k) /\ exists v, dec_parse (txt k) = Some v /\ round_to F v = Some f).
    { intros k Hk Hr. split; [apply digits_text_spec; lia|]. unfold reads in Hr. destruct (dec_parse (txt k)) as [v|]; [|discriminate]. exists v. split; [reflexivity|].
      destruct (round_to F v) as [g|]; [|discriminate]. apply N.eqb_eq in Hr. now subst. }
    change (decimal (match find (fun k => reads (txt k) f) (seq 1 most) with Some k => txt k | None => txt most end) /\
      exists v, dec_parse (match find (fun k => reads (txt k) f) (seq 1 most) with Some k => txt k | None => txt most end) = Some v /\ round_to F v = Some f).
    destruct (find (fun k => reads (txt k) f) (seq 1 most)) as [k|] eqn:E.
    + apply find_some in E as [I Hr]. apply in_seq in I. apply Q; [lia|exact Hr].
    + apply Q; [lia|]. now apply most_reads.
Qed.
End Shortest.
Definition float32_text := shortest F32 9.
Definition float64_text := shortest F64 18.
Lemma float32_prints : prints F32 float32_text.
Proof. apply shortest_prints; [discriminate|discriminate|lia|vm_compute; reflexivity]. Qed.
Lemma float64_prints : prints F64 float64_text.
Proof. apply shortest_prints; [discriminate|discriminate|lia|vm_compute; reflexivity]. Qed.

(** ** Cases *)
Definition no_refs (p : ptr) : bytes := str "RBX0".
Notation show v := (String.string_of_list_byte (value_string float32_text float64_text no_refs v)).
Example C87_witness :
  show (RUDim2 0x3dcccccd (-5)%Z 0x7f7fffff 7%Z) = "{0.1, -5}, {340282350000000000000000000000000000000, 7}"%string /\
  show (RFaces true false false true false true) = "Front, Left, Right"%string /\
  show (RNumberSequence [NSK 0 0x3f800000 0; NSK 0x3f800000 0x80000000 0x7fc00001]) = "0 1 0 1 -0 NaN "%string /\
  show (RDouble 0x3fb999999999999a) = "0.1"%string /\ show (RFloat 1) = "0.000000000000000000000000000000000000000000001"%string /\
  show (RFont (str "rbxasset://a") 700 x01 []) = "Font { Family = rbxasset://a, Weight = Bold, Style = Italic }"%string /\
  show (RCFrame (Vec3 0x3f800000 0x40000000 0xff800000) identity_rot) = "1, 2, -Inf, 1, 0, 0, 0, 1, 0, 0, 0, 1"%string /\
  show (RUniqueId (-1)%Z 2 3) = "ffffffffffffffff0000000200000003"%string.
Proof. repeat split; vm_compute; reflexivity. Qed.

(** What the text of a value does not tell. *)
Theorem C88_lost : forall ff32 ff64 reference, let String_ := value_string ff32 ff64 reference in
  String_ (ROptional TypeString (Some (RString (str "nil")))) = String_ (ROptional TypeString None) /\
  String_ (ROptional TypeInt None) = String_ (ROptional TypeString None) /\
  (forall f w s c c', String_ (RFont f w s c) = String_ (RFont f w s c')) /\
  (forall d f e fw ew, String_ (RPhysicalProperties false d f e fw ew) = str "nil") /\
  (forall p, p <> 0 -> reference p = str "<nil>" -> String_ (RReference p) = String_ (RReference 0)) /\
  (forall p q, p <> 0 -> q <> 0 -> reference p = reference q -> String_ (RReference p) = String_ (RReference q)).
Proof.
  intros. repeat split.
  - intros [|p] H E; [contradiction|]. exact E.
  - intros [|p] [|q] H H' E; try contradiction. exact E.
Qed.
Example C88_witness : seen (RFont [] 250 x01 (str "x")) = seen (RFont [] 0 x01 []) /\ seen (RFont [] 700 x01 []) <> seen (RFont [] 0 x01 []) /\
  seen (RFloat 0x7fc00001) = seen (RFloat 0xffc00000) /\ seen (RFloat 0) <> seen (RFloat 0x80000000).
Proof. repeat split; try reflexivity; discriminate. Qed.
Print Assumptions C87_layout.
Print Assumptions C87_integers.
Print Assumptions C88_same_text.
