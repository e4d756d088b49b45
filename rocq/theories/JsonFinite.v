(** JsonFinite.v - when the JSON encoder reports an error. *)
From Coq Require Import Permutation.
From Verif Require Import Base RbxlValues RbxValues Tree RbxlCodec XmlText Ieee Json SpecValues SpecTree SpecCodec SpecJson TreeProofs SortProofs
  JsonProofs PropTree RbxlFileProofs XmlTreeEnc.

Definition bad (j : jv) : bool := match marshal j with None => true | Some _ => false end.
Lemma bad_arr l : bad (JArr l) = existsb bad l.
Proof.
  unfold bad at 1. rewrite marshal_arr_eq. replace (match option_map JArr (marshal_list l) with Some _ => false | None => true end)
    with (match marshal_list l with Some _ => false | None => true end) by now destruct (marshal_list l).
  induction l as [|v l IH]; [reflexivity|]. cbn [marshal_list existsb]. unfold bad at 1. destruct (marshal v); [|reflexivity]. cbn [orb]. rewrite <- IH.
  now destruct (marshal_list l).
Qed.
Lemma bad_obj m : bad (JObj m) = existsb (fun kv => bad (snd kv)) m.
Proof.
  unfold bad at 1. rewrite marshal_obj_eq.
  match goal with |- match option_map ?f ?x with _ => _ end = _ => replace (match option_map f x with Some _ => false | None => true end)
    with (match x with Some _ => false | None => true end) by now destruct x end.
  induction m as [|[k v] l IH]; [reflexivity|]. cbn [marshal_members existsb snd]. unfold bad at 1. destruct (marshal v); [|reflexivity]. cbn [orb]. rewrite <- IH.
  now destruct (marshal_members l).
Qed.
Lemma bad_fixed l : bad (obj l) = existsb bad (map snd l).
Proof. unfold obj. rewrite bad_obj. induction l as [|[k v] l IH]; [reflexivity|]. cbn [map existsb snd]. now rewrite IH. Qed.
Lemma bad_jf f : f32 f -> bad (jf f) = negb (f_finite F32 f).
Proof. intros H. unfold bad, jf. cbn [marshal]. rewrite f64_of_f32_finite by now apply f32_word. now destruct (f_finite F32 f). Qed.
Lemma bad_ji z : (Z.abs z <= 2 ^ 63)%Z -> bad (ji z) = false.
Proof. intros H. unfold bad, ji. cbn [marshal]. now rewrite f64_of_Z_finite_64. Qed.
Lemma small_of_range b z : (0 < b <= 64)%Z -> int_range b z -> (Z.abs z <= 2 ^ 63)%Z.
Proof. unfold int_range. intros Hb H. assert (2 ^ (b - 1) <= 2 ^ 63)%Z by (apply Z.pow_le_mono_r; lia). lia. Qed.
Lemma bad_jn n : f32 n -> bad (jn n) = false.
Proof. intros H. apply bad_ji. unfold f32 in H. change (2 ^ 32)%N with 4294967296%N in H. change (2 ^ 63)%Z with 9223372036854775808%Z. lia. Qed.
Lemma bad_jb b : bad (jn (b2N b)) = false.
Proof. apply bad_jn. pose proof (b2N_lt b). unfold f32. lia. Qed.
Definition inf32 (f : N) : bool := negb (f_finite F32 f).
Definition inf64 (f : N) : bool := negb (f_finite F64 f).
Lemma nonfinite_b v : nonfinite v <-> existsb inf32 (singles v) || existsb inf64 (doubles v) = true.
Proof.
  unfold nonfinite. rewrite orb_true_iff, !existsb_exists. unfold inf32, inf64. split; intros [H|H]; [left|right|left|right];
    destruct H as (f & H1 & H2); exists f; (split; [exact H1|]); destruct (f_finite _ f); try discriminate H2; reflexivity.
Qed.
Lemma bad_vec3 v : wf_vec3 v -> bad (j_vec3 v) = existsb inf32 (vec_numbers v).
Proof. intros (H1 & H2 & H3). unfold j_vec3. rewrite bad_fixed. cbn [map snd existsb vec_numbers]. now rewrite !bad_jf by assumption. Qed.
Lemma bad_map {A} (f : A -> jv) g l : (forall a, In a l -> bad (f a) = existsb inf32 (g a)) -> bad (JArr (map f l)) = existsb inf32 (flat_map g l).
Proof.
  rewrite bad_arr. intros H. induction l as [|a l IH]; [reflexivity|]. cbn [map existsb flat_map]. rewrite existsb_app, IH by (intros; apply H; now right).
  now rewrite H by now left.
Qed.
Lemma bad_str s : bad (JStr s) = false. Proof. reflexivity. Qed.
Lemma bad_bool b : bad (JBool b) = false. Proof. reflexivity. Qed.
Ltac nums := rewrite ?bad_fixed; cbn [map snd existsb]; rewrite ?bad_fixed; cbn [map snd existsb];
  rewrite ?bad_vec3, ?bad_jf by (assumption || easy); rewrite ?bad_bool, ?orb_false_r, ?orb_assoc, ?existsb_app; try reflexivity.
Section Enc.
Variable (rnd : nat -> bytes) (ord : ptr -> list (bytes * rvalue) -> list (bytes * rvalue)).
Theorem value_bad : forall v s j s', wf_rvalue v -> ValueToJSON rnd v s = OK (j, s') -> bad j = existsb inf32 (singles v) || existsb inf64 (doubles v).
Proof.
  assert (B : forall z, int_range 32 z -> bad (ji z) = false) by (intros z Hz; apply bad_ji; now apply (small_of_range 32)).
  assert (C : forall z, int_range 16 z -> bad (ji z) = false) by (intros z Hz; apply bad_ji; now apply (small_of_range 16)).
  assert (P : forall v s j s', (forall o t, v <> ROptional t o) -> wf_rvalue v -> ValueToJSON rnd v s = OK (j, s') -> bad j = existsb inf32 (singles v) || existsb inf64 (doubles v)).
  2:{ fix IH 1. intros v s j s' Hw HE. destruct v; try (apply (P _ s j s'); [discriminate|exact Hw|exact HE]).
      destruct v as [v|]; cbn [ValueToJSON wf_rvalue singles doubles] in *.
      - destruct Hw as [-> Hw]. apply bind_OK in HE as ([j1 s1] & E1 & HE). apply OK_pair' in HE as [<- <-]. rewrite bad_fixed. cbn [map snd existsb].
        rewrite (IH v s j1 s1 Hw E1). replace (bad (JType (rtype v))) with false by (destruct v; reflexivity). now rewrite orb_false_r.
      - apply OK_pair' in HE as [<- <-]. rewrite bad_fixed. reflexivity. }
  clear - B C. intros v s j s' Hno Hw HE. destruct v as [b|b|b|b|b|n|f|f|sc o|xs xo ys yo|o d|r t b l bo f|x y z|n|r g b|x y|v|p rot|n|q|x y z|x y|ks|ks|a b|a b c d|c d f e fw ew|r g b|n|b|t o|a b c|a b c d];
    cbn [ValueToJSON wf_rvalue singles doubles] in *; try (apply OK_pair' in HE as [<- _]); try reflexivity.
  - now destruct b.
  - cbn [existsb]. rewrite B by exact Hw. reflexivity.
  - cbn [existsb]. rewrite bad_jf by exact Hw. now rewrite !orb_false_r.
  - cbn [existsb orb]. unfold bad, inf64. cbn [marshal]. now destruct (f_finite F64 f).
  - destruct Hw as [H1 H2]. unfold j_udim. nums. now rewrite B, !orb_false_r.
  - destruct Hw as (H1 & H2 & H3 & H4). unfold j_udim. nums. rewrite !B by assumption. now rewrite !orb_false_r.
  - destruct Hw as (H1 & H2). nums.
  - rewrite bad_jn by exact Hw. reflexivity.
  - destruct Hw as (H1 & H2 & H3). unfold j_color3. nums.
  - destruct Hw as (H1 & H2). unfold j_vec2. nums.
  - rewrite bad_vec3 by exact Hw. now rewrite orb_false_r.
  - destruct Hw as (H1 & H2 & H3). nums. f_equal. rewrite bad_arr. clear - H3. induction H3 as [|f l Hf Hl IH]; [reflexivity|]. cbn [map existsb]. now rewrite bad_jf, IH.
  - rewrite bad_jn by exact Hw. reflexivity.
  - unfold j_ref in HE. apply bind_OK in HE as ([[[r h] m] k] & E & HE). apply OK_pair' in HE as [<- _]. reflexivity.
  - destruct Hw as (H1 & H2 & H3). nums. now rewrite !C by assumption.
  - destruct Hw as (H1 & H2). nums. now rewrite !C by assumption.
  - destruct Hw as [_ Hw]. cbn [existsb]. rewrite orb_false_r. apply bad_map. intros k Hk. rewrite Forall_forall in Hw. destruct (Hw k Hk) as (H1 & H2 & H3). nums.
  - destruct Hw as [_ Hw]. cbn [existsb]. rewrite orb_false_r. apply bad_map. intros k Hk. rewrite Forall_forall in Hw. destruct (Hw k Hk) as (H1 & H2 & H3 & H4 & H5). unfold j_color3. nums.
  - destruct Hw as (H1 & H2). nums.
  - destruct Hw as (H1 & H2 & H3 & H4). unfold j_vec2. nums.
  - destruct Hw as (H1 & H2 & H3 & H4 & H5). nums.
  - rewrite bad_fixed. cbn [map snd existsb]. now rewrite !bad_jb.
  - cbn [existsb]. apply bad_ji. now apply (small_of_range 64).
  - now destruct (Hno o t).
Qed.

Variable h0 : heap.
Definition bad_value (v : rvalue) : bool := existsb inf32 (singles v) || existsb inf64 (doubles v).
Definition kept_heap (s : jst) : Prop := forall p i, hget h0 p = Some i -> exists i', hget (js_heap s) p = Some i' /\ same_but_ref i i'.
Lemma j_ref_kept p s j s' : kept_heap s -> j_ref rnd p s = OK (j, s') -> kept_heap s' /\ bad j = false.
Proof.
  intros Hk HE. unfold j_ref in HE. apply bind_OK in HE as ([[[r h] m] k] & E & HE). apply OK_pair' in HE as [<- <-]. split; [|reflexivity].
  apply C33_only_ref in E as (_ & E1 & E2). intros q i Hi. destruct (Hk q i Hi) as (i' & Hi' & Si). cbn [js_heap].
  destruct (Nat.eq_dec q p) as [->|Hne]; [|rewrite E1 by exact Hne; eauto]. exists (set_ref i' r). split; [now apply E2|]. eapply same_trans; [exact Si|apply same_but_ref_set].
Qed.
Lemma value_kept : forall v s j s', kept_heap s -> ValueToJSON rnd v s = OK (j, s') -> kept_heap s'.
Proof.
  fix IH 1. intros v s j s' Hk HE. destruct v; cbn [ValueToJSON] in HE; try (apply OK_pair' in HE as [_ <-]; exact Hk).
  - now destruct (j_ref_kept p s j s' Hk HE).
  - destruct v as [v|]; [|apply OK_pair' in HE as [_ <-]; exact Hk]. apply bind_OK in HE as ([j1 s1] & E & HE). apply OK_pair' in HE as [_ <-]. exact (IH v s j1 s1 Hk E).
Qed.
Lemma props_bad l : forall s js s', kept_heap s -> Forall (fun nv => wf_rvalue (snd nv)) l -> props_to_json rnd l s = OK (js, s') ->
  kept_heap s' /\ existsb (fun kv => bad (snd kv)) js = existsb (fun nv => bad_value (snd nv)) l.
Proof.
  induction l as [|[n v] l IH]; intros s js s' Hk Hw HE; cbn [props_to_json] in HE; [apply OK_pair' in HE as [<- <-]; now split|].
  apply Forall_cons_iff in Hw as [Hv Hw]. apply bind_OK in HE as ([j1 s1] & E1 & HE). apply bind_OK in HE as ([r s2] & E2 & HE). apply OK_pair' in HE as [<- <-].
  destruct (IH s1 r s2 (value_kept v s j1 s1 Hk E1) Hw E2) as [K2 B2]. split; [exact K2|]. cbn [existsb snd]. rewrite B2, bad_fixed. cbn [map snd existsb].
  rewrite bad_str, orb_false_l, orb_false_r. f_equal. exact (value_bad v s j1 s1 Hv E1).
Qed.
Definition bad_inst (p : ptr) : bool := match hget h0 p with Some i => existsb (fun nv => bad_value (snd nv)) (i_props i) | None => false end.
Hypothesis Hord : any_order ord.
Hypothesis Hwf : forall p i, hget h0 p = Some i -> Forall (fun nv => wf_rvalue (snd nv)) (i_props i).
Lemma existsb_perm {A} (f : A -> bool) l l' : Permutation l l' -> existsb f l = existsb f l'.
Proof.
  intros H. destruct (existsb f l) eqn:E.
  - symmetry. apply existsb_exists in E. destruct E as (x & Hx & Hf). apply existsb_exists. exists x. split; [eapply Permutation_in; eauto|exact Hf].
  - symmetry. destruct (existsb f l') eqn:E'; [|reflexivity]. apply existsb_exists in E'. destruct E' as (x & Hx & Hf).
    assert (existsb f l = true); [|congruence]. apply existsb_exists. exists x. split; [eapply Permutation_in; [apply Permutation_sym|]; eauto|exact Hf].
Qed.
Definition tree_bad (f : ptr -> jst -> jout (jv * jst)) (t : rtree) : Prop :=
  forall s j s', kept_heap s -> f (rroot t) s = OK (j, s') -> kept_heap s' /\ bad j = existsb bad_inst (rnodes t).
Lemma insts_bad f ts : Forall (tree_bad f) ts -> forall s js s', kept_heap s -> insts_to_json f (map rroot ts) s = OK (js, s') ->
  kept_heap s' /\ existsb bad js = existsb bad_inst (fnodes ts).
Proof.
  induction 1 as [|t ts Ht Hts IH]; intros s js s' Hk HE; cbn [map insts_to_json] in HE; [apply OK_pair' in HE as [<- <-]; now split|].
  apply bind_OK in HE as ([j1 s1] & E1 & HE). apply bind_OK in HE as ([r s2] & E2 & HE). apply OK_pair' in HE as [<- <-].
  destruct (Ht s j1 s1 Hk E1) as [K1 B1]. destruct (IH s1 r s2 K1 E2) as [K2 B2]. split; [exact K2|]. cbn [existsb]. unfold fnodes in *. cbn [flat_map].
  now rewrite existsb_app, B1, B2.
Qed.
Lemma inst_bad fuel : forall t, tree_at h0 t -> tree_bad (InstanceToJSON rnd ord fuel) t.
Proof.
  induction fuel as [|fuel IH]; intros [p ts] Ht s j s' Hk HE; [discriminate HE|]. inversion Ht as [p' ts' i Hi Hc Hts]; subst.
  cbn [rroot InstanceToJSON] in HE. destruct (Hk p i Hi) as (i1 & Hi1 & S1 & S2 & S3 & S4). rewrite Hi1 in HE.
  apply bind_OK in HE as ([r s1] & E1 & HE). apply bind_OK in HE as ([ps s2] & E2 & HE). apply bind_OK in HE as ([cs s3] & E3 & HE). apply OK_pair' in HE as [<- <-].
  destruct (j_ref_kept p s r s1 Hk E1) as [K1 B1]. rewrite <- S3 in E2.
  destruct (props_bad (ord p (i_props i)) s1 ps s2 K1) as [K2 B2]; [eapply Permutation_Forall; [apply Hord|]; now apply Hwf with p|exact E2|].
  rewrite <- S4, Hc in E3.
  destruct (insts_bad (InstanceToJSON rnd ord fuel) ts) with (s := s2) (js := cs) (s' := s3) as [K3 B3]; [|exact K2|exact E3|].
  { apply Forall_forall. intros t Hin. apply IH. rewrite Forall_forall in Hts. now apply Hts. }
  split; [exact K3|]. rewrite bad_fixed. cbn [map snd existsb]. rewrite B1, bad_obj, B2, bad_arr, B3, bad_str, bad_bool. cbn [orb]. rewrite orb_false_r.
  cbn [rnodes existsb]. unfold bad_inst at 2. rewrite Hi. unfold fnodes. f_equal. apply existsb_perm, Permutation_sym, Hord.
Qed.
End Enc.
