(** JsonProofs.v - lemmas about Json.v. *)
From Coq Require Import Permutation.
From Verif Require Import Base RbxlValues RbxValues Tree RbxlCodec XmlText XmlTextProofs Ieee Json SpecValues SpecTree SpecCodec SpecJson TreeProofs SortProofs.

(** ** UTF-8 *)
Ltac bytes_arith :=
  unfold between, cont in *; rewrite ?b2N_N2b in *;
  repeat match goal with
  | |- context[Byte.eqb ?a ?b] => destruct (Byte.eqb a b) eqn:?
  end.
Lemma byte_is b n : (n < 256)%N -> Byte.eqb (N2b n) b = (n =? b2N b)%N.
Proof.
  intros H. destruct (Byte.eqb (N2b n) b) eqn:E.
  - apply Byte.byte_dec_bl in E. subst b. rewrite b2N_N2b, N.mod_small by exact H. symmetry. apply N.eqb_refl.
  - symmetry. apply N.eqb_neq. intros ->. rewrite N2b_b2N in E. now rewrite (Byte.byte_dec_lb eq_refl) in E.
Qed.
Lemma rune_len_rune c t : scalar c -> rune_len (rune_bytes c ++ t) = length (rune_bytes c).
Proof.
  intros Hc. unfold scalar in Hc. unfold rune_bytes.
  destruct (c <? 0x80)%N eqn:E1.
  { cbn [app rune_len length]. rewrite b2N_N2b, N.mod_small by lia. now rewrite E1. }
  destruct (c <? 0x800)%N eqn:E2.
  { cbn [app rune_len length]. unfold between, cont. rewrite !b2N_N2b.
    assert (H1 : (c / 64 < 32 /\ 2 <= c / 64)%N) by (split; [apply N.div_lt_upper_bound; lia|apply N.div_le_lower_bound; lia]).
    assert (H2 : (c mod 64 < 64)%N) by (apply N.mod_lt; lia).
    rewrite !N.mod_small by lia.
    destruct (0xc0 + c / 64 <? 0x80)%N eqn:F; [lia|].
    destruct (((0xc2 <=? 0xc0 + c / 64) && (0xc0 + c / 64 <=? 0xdf) && ((0x80 <=? 0x80 + c mod 64) && (0x80 + c mod 64 <=? 0xbf)))%N) eqn:G; [reflexivity|lia]. }
  destruct (c <? 0x10000)%N eqn:E3.
  { assert (H1 : (c / 4096 < 16)%N) by (apply N.div_lt_upper_bound; lia).
    assert (H2 : (c mod 64 < 64)%N) by (apply N.mod_lt; lia).
    assert (H3 : (c / 64 mod 64 < 64)%N) by (apply N.mod_lt; lia).
    assert (H4 : (c / 64 = 64 * (c / 4096) + c / 64 mod 64)%N).
    { rewrite (N.div_mod (c / 64) 64) at 1 by lia. rewrite N.div_div by lia. change (64 * 64)%N with 4096%N. lia. }
    pose proof (N.div_mod c 64 ltac:(lia)) as H5.
    cbn [app rune_len length]. rewrite !byte_is by lia. unfold between, cont. rewrite !b2N_N2b, !N.mod_small by lia.
    change (b2N xe0) with 0xe0%N. change (b2N xed) with 0xed%N.
    destruct (0xe0 + c / 4096 <? 0x80)%N eqn:F; [lia|].
    destruct ((0xc2 <=? 0xe0 + c / 4096) && (0xe0 + c / 4096 <=? 0xdf))%N eqn:F2; [lia|]. cbn [andb].
    destruct (0xe0 + c / 4096 =? 0xe0)%N eqn:G1;
      [|destruct (0xe0 + c / 4096 =? 0xed)%N eqn:G2];
      match goal with |- (if ?b then _ else _) = _ => destruct b eqn:G; [reflexivity|lia] end. }
  { assert (H1 : (c / 262144 < 5)%N) by (apply N.div_lt_upper_bound; lia).
    assert (H2 : (c mod 64 < 64)%N) by (apply N.mod_lt; lia).
    assert (H3 : (c / 64 mod 64 < 64)%N) by (apply N.mod_lt; lia).
    assert (H3' : (c / 4096 mod 64 < 64)%N) by (apply N.mod_lt; lia).
    assert (H4 : (c / 64 = 64 * (c / 4096) + c / 64 mod 64)%N).
    { rewrite (N.div_mod (c / 64) 64) at 1 by lia. rewrite N.div_div by lia. change (64 * 64)%N with 4096%N. lia. }
    assert (H4' : (c / 4096 = 64 * (c / 262144) + c / 4096 mod 64)%N).
    { rewrite (N.div_mod (c / 4096) 64) at 1 by lia. rewrite N.div_div by lia. change (4096 * 64)%N with 262144%N. lia. }
    pose proof (N.div_mod c 64 ltac:(lia)) as H5.
    cbn [app rune_len length]. rewrite !byte_is by lia. unfold between, cont. rewrite !b2N_N2b, !N.mod_small by lia.
    change (b2N xe0) with 0xe0%N. change (b2N xed) with 0xed%N. change (b2N xf0) with 0xf0%N. change (b2N xf4) with 0xf4%N.
    destruct (0xf0 + c / 262144 <? 0x80)%N eqn:F; [lia|].
    destruct ((0xc2 <=? 0xf0 + c / 262144) && (0xf0 + c / 262144 <=? 0xdf))%N eqn:F2; [lia|]. cbn [andb].
    destruct ((0xe0 <=? 0xf0 + c / 262144) && (0xf0 + c / 262144 <=? 0xef))%N eqn:F3; [lia|]. cbn [andb].
    destruct (0xf0 + c / 262144 =? 0xf0)%N eqn:G1;
      [|destruct (0xf0 + c / 262144 =? 0xf4)%N eqn:G2];
      match goal with |- (if ?b then _ else _) = _ => destruct b eqn:G; [reflexivity|lia] end. }
Qed.
Lemma rune_bytes_nonempty c : exists a r, rune_bytes c = a :: r.
Proof. unfold rune_bytes. repeat match goal with |- context[if ?b then _ else _] => destruct b end; eauto. Qed.
Lemma utf8_loop_id cs : Forall scalar cs -> forall fuel, length (flat_map rune_bytes cs) <= fuel ->
  utf8_loop fuel (flat_map rune_bytes cs) = flat_map rune_bytes cs.
Proof.
  induction 1 as [|c cs Hc Hcs IH]; intros fuel Hf; cbn [flat_map] in *.
  - now destruct fuel.
  - destruct (rune_bytes_nonempty c) as (a & r & E). pose proof (rune_len_rune c (flat_map rune_bytes cs) Hc) as HL.
    rewrite app_length in Hf. destruct fuel as [|fuel]; [rewrite E in Hf; cbn in Hf; lia|].
    assert (Hn : exists n, length (rune_bytes c) = S n) by (rewrite E; cbn; eauto). destruct Hn as [n Hn].
    assert (U : forall s, s <> [] -> utf8_loop (S fuel) s =
      match rune_len s with O => xef :: xbf :: xbd :: utf8_loop fuel (tl s) | n => firstn n s ++ utf8_loop fuel (skipn n s) end).
    { intros [|x s] Hs; [contradiction|reflexivity]. }
    rewrite U by (rewrite E; discriminate). rewrite HL.
    replace (match length (rune_bytes c) with O => _ | S _ => _ end) with
      (firstn (length (rune_bytes c)) (rune_bytes c ++ flat_map rune_bytes cs) ++ utf8_loop fuel (skipn (length (rune_bytes c)) (rune_bytes c ++ flat_map rune_bytes cs)))
      by (rewrite Hn; reflexivity).
    rewrite firstn_app, Nat.sub_diag, firstn_all, firstn_O, app_nil_r.
    rewrite skipn_app, Nat.sub_diag, skipn_all, skipn_O. cbn [app]. rewrite IH by lia. reflexivity.
Qed.
Lemma utf8_fix_id s : utf8 s -> utf8_fix s = s.
Proof. intros (cs & H & ->). unfold utf8_fix. now apply utf8_loop_id. Qed.
(** ASCII text is UTF-8. *)
Definition ascii (s : bytes) : bool := forallb (fun b => (b2N b <? 0x80)%N) s.
Lemma ascii_utf8 s : ascii s = true -> utf8 s.
Proof.
  intros H. exists (map b2N s). induction s as [|b s IH]; [split; [constructor|reflexivity]|].
  cbn [ascii forallb map flat_map] in *. apply andb_true_iff in H as [Hb H]. destruct (IH H) as [H1 H2]. split.
  - constructor; [unfold scalar; lia|exact H1].
  - unfold rune_bytes at 1. rewrite Hb, N2b_b2N. cbn [app]. now rewrite <- H2.
Qed.

(** ** Objects through encoding/json *)
Definition mar (a b : bytes * jv) : Prop := fst a = fst b /\ marshal (snd a) = Some (snd b).
Fixpoint marshal_members (m : list (bytes * jv)) : option (list (bytes * jv)) :=
  match m with
  | [] => Some []
  | (k, v) :: m => match marshal v, marshal_members m with Some v, Some m => Some ((k, v) :: m) | _, _ => None end
  end.
Fixpoint marshal_list (l : list jv) : option (list jv) :=
  match l with
  | [] => Some []
  | v :: l => match marshal v, marshal_list l with Some v, Some l => Some (v :: l) | _, _ => None end
  end.
Lemma marshal_arr_eq l : marshal (JArr l) = option_map JArr (marshal_list l).
Proof. reflexivity. Qed.
Lemma marshal_obj_eq m : marshal (JObj m) =
  option_map (fun m => JObj (fold_left (fun acc kv => mset acc (utf8_fix (fst kv)) (snd kv)) (sort_by fst m) [])) (marshal_members m).
Proof. reflexivity. Qed.
Lemma marshal_list_ok l l' : Forall2 (fun a b => marshal a = Some b) l l' -> marshal (JArr l) = Some (JArr l').
Proof.
  intros H. rewrite marshal_arr_eq. assert (E : marshal_list l = Some l') by (induction H as [|a b l l' Hab Hl IH]; [reflexivity|]; cbn [marshal_list]; now rewrite Hab, IH).
  now rewrite E.
Qed.
Lemma marshal_members_ok m m' : Forall2 mar m m' -> marshal_members m = Some m' /\ map fst m = map fst m'.
Proof.
  induction 1 as [|[k v] [k' v'] m m' [Hk Hv] Hl [IH1 IH2]]; [now split|]. cbn [fst snd] in *. subst k'. cbn [marshal_members map fst].
  now rewrite Hv, IH1, IH2.
Qed.
Lemma fold_mset_utf8 (l : list (bytes * jv)) : NoDup (map fst l) -> Forall utf8 (map fst l) -> forall acc,
  NoDup (map fst acc) ->
  let r := fold_left (fun acc kv => mset acc (utf8_fix (fst kv)) (snd kv)) l acc in
  NoDup (map fst r) /\ forall k, mfind r k = match mfind l k with Some v => Some v | None => mfind acc k end.
Proof.
  induction l as [|[k v] l IH]; intros Hn Hu acc Ha; cbn [fold_left fst snd map mfind] in *; [now split|].
  inversion Hn as [|? ? N1 N2]; subst. apply Forall_cons_iff in Hu as [U1 U2].
  rewrite (utf8_fix_id k U1). destruct (IH N2 U2 (mset acc k v) (mset_keys acc k v Ha)) as [R1 R2]. split; [exact R1|].
  intros k'. rewrite R2. rewrite mfind_mset. destruct (beqb_spec k k') as [->|Hne].
  - destruct (mfind l k') eqn:E; [|reflexivity]. destruct N1. apply mfind_key. eauto.
  - reflexivity.
Qed.
Lemma marshal_obj m m' : Forall2 mar m m' -> NoDup (map fst m) -> Forall utf8 (map fst m) ->
  exists r, marshal (JObj m) = Some (JObj r) /\ NoDup (map fst r) /\ forall k, mfind r k = mfind m' k.
Proof.
  intros H Hn Hu. destruct (marshal_members_ok m m' H) as [E Ek]. rewrite marshal_obj_eq, E. cbn [option_map].
  rewrite Ek in Hn, Hu. pose proof (sort_perm fst m') as P.
  assert (Hn' : NoDup (map fst (sort_by fst m'))) by (eapply Permutation_NoDup; [apply Permutation_map; exact P|exact Hn]).
  assert (Hu' : Forall utf8 (map fst (sort_by fst m'))) by (eapply Permutation_Forall; [apply Permutation_map; exact P|exact Hu]).
  destruct (fold_mset_utf8 _ Hn' Hu' [] ltac:(constructor)) as [R1 R2]. eexists. split; [reflexivity|]. split; [exact R1|].
  intros k. rewrite R2. rewrite <- (mfind_perm m' _ k Hn P). destruct (mfind m' k); reflexivity.
Qed.
(** For the objects with fixed members. *)
Fixpoint nodup_keys (l : list bytes) : bool :=
  match l with [] => true | k :: l => negb (existsb (bytes_eqb k) l) && nodup_keys l end.
Lemma nodup_keys_ok l : nodup_keys l = true -> NoDup l.
Proof.
  induction l as [|k l IH]; cbn [nodup_keys]; intros H; [constructor|]. apply andb_true_iff in H as [H1 H2]. constructor; [|auto].
  intros Hi. apply negb_true_iff in H1. assert (existsb (bytes_eqb k) l = true); [|congruence].
  apply existsb_exists. exists k. split; [exact Hi|apply bytes_eqb_refl].
Qed.
Definition named (l : list (String.string * jv)) : list (bytes * jv) := map (fun kv => (str (fst kv), snd kv)) l.
Lemma marshal_fixed l l' :
  map fst l = map fst l' -> Forall2 (fun a b => marshal a = Some b) (map snd l) (map snd l') ->
  nodup_keys (map (fun kv => str (fst kv)) l) && forallb (fun kv => ascii (str (fst kv))) l = true ->
  exists r, marshal (obj l) = Some (JObj r) /\ NoDup (map fst r) /\ forall k, mfind r k = mfind (named l') k.
Proof.
  intros Hk Hv Hc. apply andb_true_iff in Hc as [Hn Ha]. unfold obj. apply marshal_obj.
  - revert l' Hk Hv. induction l as [|[k v] l IH]; intros [|[k' v'] l'] Hk Hv; cbn [map fst snd named] in *; try discriminate; [constructor|].
    injection Hk as -> Hk. inversion Hv; subst. constructor; [now split|]. cbn [nodup_keys map forallb] in *.
    apply andb_true_iff in Hn as [_ Hn]. apply andb_true_iff in Ha as [_ Ha]. apply IH; assumption.
  - rewrite map_map. cbn [fst]. now apply nodup_keys_ok.
  - rewrite map_map. cbn [fst]. apply Forall_forall. intros x Hx. apply in_map_iff in Hx. destruct Hx as (kv & <- & Hi).
    apply ascii_utf8. rewrite forallb_forall in Ha. now apply Ha.
Qed.

(** ** Numbers *)
Lemma f32_word f : f32 f -> f_word F32 f.
Proof. unfold f32, f_word. change (f_bits F32 + 1)%Z with 32%Z. lia. Qed.
Lemma finite_not_nan F f : f_finite F f = true -> f_isnan F f = false.
Proof. unfold f_finite, f_isnan. destruct (f_decode F f); congruence. Qed.
Lemma marshal_jf f : real32 f -> marshal (jf f) = Some (JNum (f64_of_f32 f)).
Proof. intros [H1 H2]. unfold jf. cbn [marshal]. now rewrite (f64_of_f32_finite f (f32_word f H1)), H2. Qed.
Lemma jf_back f : real32 f -> f32_of_f64 (f64_of_f32 f) = f.
Proof. intros [H1 H2]. apply f32_of_f64_of_f32; [now apply f32_word|now apply finite_not_nan]. Qed.
Lemma marshal_ji z : (Z.abs z < 2 ^ 53)%Z -> marshal (ji z) = Some (JNum (f64_of_Z z)).
Proof. intros H. unfold ji. cbn [marshal]. now rewrite f64_of_Z_finite. Qed.
Lemma int_small b z : (0 < b <= 53)%Z -> int_range b z -> (Z.abs z < 2 ^ 53)%Z.
Proof.
  unfold int_range. intros Hb H. assert (2 ^ (b - 1) <= 2 ^ 52)%Z by (apply Z.pow_le_mono_r; lia).
  change (2 ^ 53)%Z with (2 * 2 ^ 52)%Z. lia.
Qed.
Lemma u32_small n : f32 n -> (Z.abs (Z.of_N n) < 2 ^ 53)%Z.
Proof. unfold f32. intros H. change (2 ^ 53)%Z with 9007199254740992%Z. change (2 ^ 32)%N with 4294967296%N in H. lia. Qed.

Lemma fixed_members l l' :
  map fst l = map fst l' -> Forall2 (fun a b => marshal a = Some b) (map snd l) (map snd l') ->
  nodup_keys (map (fun kv => str (fst kv)) l) && forallb (fun kv => ascii (str (fst kv))) l = true ->
  exists r, marshal (obj l) = Some (JObj r) /\ forall k, member r k = member (named l') k.
Proof.
  intros H1 H2 H3. destruct (marshal_fixed l l' H1 H2 H3) as (r & E & _ & F). exists r. split; [exact E|].
  intros k. unfold member. now rewrite F.
Qed.
Ltac look F :=
  repeat match goal with |- context[member ?r ?k] =>
    let H := fresh "M" in pose proof (F k) as H;
    match type of H with _ = ?t => let t' := eval hnf in t in change t with t' in H end; rewrite H; clear H end.
Section Values.
Variable other : Z -> Z -> N -> Z.
Lemma to_i32_back z : int_range 32 z -> to_i32 other (f64_of_Z z) = z.
Proof. intros H. unfold to_i32, to_int. apply to_int_f64_of_Z; [unfold int_range in H; lia|now apply (int_small 32)]. Qed.
Lemma to_i16_back z : int_range 16 z -> to_i16 other (f64_of_Z z) = z.
Proof. intros H. unfold to_i16, to_int. apply to_int_f64_of_Z; [unfold int_range in H; lia|now apply (int_small 16)]. Qed.
Lemma to_i64_back z : (Z.abs z < 2 ^ 53)%Z -> to_i64 other (f64_of_Z z) = z.
Proof. intros H. unfold to_i64, to_int. apply to_int_f64_of_Z; [|exact H]. change (2 ^ 53)%Z with 9007199254740992%Z in H. change (2 ^ 63)%Z with 9223372036854775808%Z. lia. Qed.
Lemma to_u32_back n : f32 n -> Z.to_N (to_u32 other (f64_of_Z (Z.of_N n))) = n.
Proof.
  intros H. unfold to_u32, to_int. rewrite to_int_f64_of_Z; [lia| |now apply u32_small].
  unfold f32 in H. change (2 ^ 32)%N with 4294967296%N in H. change (2 ^ 32)%Z with 4294967296%Z. lia.
Qed.
Lemma to_u8_back b : N2b (Z.to_N (to_u8 other (f64_of_Z (Z.of_N (b2N b))))) = b.
Proof.
  pose proof (b2N_lt b) as H. unfold to_u8, to_int. rewrite to_int_f64_of_Z; [now rewrite N2Z.id, N2b_b2N| |].
  - change (2 ^ 8)%Z with 256%Z. lia.
  - change (2 ^ 53)%Z with 9007199254740992%Z. lia.
Qed.

(** What a JSON value is written as, and what is read from that. *)
Definition trips {A} (read : jv -> A) (j : jv) (a : A) : Prop := exists j', marshal j = Some j' /\ read j' = a.
Ltac fixed ms F r E :=
  match goal with |- trips _ (obj ?l) _ =>
    destruct (fixed_members l ms) as (r & E & F);
    [reflexivity|repeat (apply Forall2_cons || apply Forall2_nil); cbn [fst snd]; auto|reflexivity|] end.
Hint Resolve marshal_jf : core.
Lemma trip_vec3 v : real_vec3 v -> trips from_vec3 (j_vec3 v) (OK (Some v)).
Proof.
  intros (Hx & Hy & Hz). unfold j_vec3.
  fixed [("x", JNum (f64_of_f32 (v3x v))); ("y", JNum (f64_of_f32 (v3y v))); ("z", JNum (f64_of_f32 (v3z v)))]%string F r E.
  exists (JObj r). split; [exact E|]. unfold from_vec3, num32, num. look F. cbn [obind]. rewrite !jf_back by assumption. now destruct v.
Qed.
Lemma trip_vec2 x y : real32 x -> real32 y -> trips from_vec2 (j_vec2 x y) (OK (Some (x, y))).
Proof.
  intros Hx Hy. unfold j_vec2. fixed [("x", JNum (f64_of_f32 x)); ("y", JNum (f64_of_f32 y))]%string F r E.
  exists (JObj r). split; [exact E|]. unfold from_vec2, num32, num. look F. cbn [obind]. now rewrite !jf_back by assumption.
Qed.
Lemma trip_color3 x y z : real32 x -> real32 y -> real32 z -> trips from_color3 (j_color3 x y z) (OK (Some (x, y, z))).
Proof.
  intros Hx Hy Hz. unfold j_color3. fixed [("r", JNum (f64_of_f32 x)); ("g", JNum (f64_of_f32 y)); ("b", JNum (f64_of_f32 z))]%string F r E.
  exists (JObj r). split; [exact E|]. unfold from_color3, num32, num. look F. cbn [obind]. now rewrite !jf_back by assumption.
Qed.
Lemma marshal_i32 z : int_range 32 z -> marshal (ji z) = Some (JNum (f64_of_Z z)).
Proof. intros H. apply marshal_ji. now apply (int_small 32). Qed.
Lemma marshal_i16 z : int_range 16 z -> marshal (ji z) = Some (JNum (f64_of_Z z)).
Proof. intros H. apply marshal_ji. now apply (int_small 16). Qed.
Lemma marshal_jn n : f32 n -> marshal (jn n) = Some (JNum (f64_of_Z (Z.of_N n))).
Proof. intros H. apply marshal_ji. now apply u32_small. Qed.
Lemma marshal_jb b : marshal (jn (b2N b)) = Some (JNum (f64_of_Z (Z.of_N (b2N b)))).
Proof. apply marshal_jn. pose proof (b2N_lt b). unfold f32. lia. Qed.
Hint Resolve marshal_i32 marshal_i16 marshal_jn marshal_jb : core.
Lemma trip_udim s o : real32 s -> int_range 32 o -> trips (from_udim other) (j_udim s o) (OK (Some (s, o))).
Proof.
  intros Hs Ho. unfold j_udim. fixed [("scale", JNum (f64_of_f32 s)); ("offset", JNum (f64_of_Z o))]%string F r E.
  exists (JObj r). split; [exact E|]. unfold from_udim, num32, num. look F. cbn [obind]. now rewrite jf_back, to_i32_back by assumption.
Qed.
Lemma trip_nskey k : real32 (ns_time k) /\ real32 (ns_value k) /\ real32 (ns_env k) ->
  trips from_nskey (obj [("time", jf (ns_time k)); ("value", jf (ns_value k)); ("envelope", jf (ns_env k))]%string) (OK k).
Proof.
  intros (H1 & H2 & H3). fixed [("time", JNum (f64_of_f32 (ns_time k))); ("value", JNum (f64_of_f32 (ns_value k))); ("envelope", JNum (f64_of_f32 (ns_env k)))]%string F r E.
  exists (JObj r). split; [exact E|]. unfold from_nskey, num32, num. look F. cbn [obind]. rewrite !jf_back by assumption. now destruct k.
Qed.
Lemma trip_cskey k : real32 (cs_time k) /\ real32 (cs_r k) /\ real32 (cs_g k) /\ real32 (cs_b k) /\ real32 (cs_env k) ->
  trips from_cskey (obj [("time", jf (cs_time k)); ("value", j_color3 (cs_r k) (cs_g k) (cs_b k)); ("envelope", jf (cs_env k))]%string) (OK k).
Proof.
  intros (H1 & H2 & H3 & H4 & H5). destruct (trip_color3 _ _ _ H2 H3 H4) as (c & Ec & Rc).
  fixed [("time", JNum (f64_of_f32 (cs_time k))); ("value", c); ("envelope", JNum (f64_of_f32 (cs_env k)))]%string F r E.
  exists (JObj r). split; [exact E|]. unfold from_cskey, num32, num. look F. cbn [obind]. unfold must. rewrite Rc. cbn [obind].
  rewrite !jf_back by assumption. now destruct k.
Qed.
Lemma trip_each {A B} (read : jv -> jout A) (write : B -> jv) (back : B -> A) l :
  Forall (fun b => trips read (write b) (OK (back b))) l ->
  exists l', marshal (JArr (map write l)) = Some (JArr l') /\ each read l' = OK (map back l).
Proof.
  intros H. assert (exists l', Forall2 (fun a b => marshal a = Some b) (map write l) l' /\ each read l' = OK (map back l)) as (l' & H1 & H2).
  { induction H as [|b l (j' & E & R) Hl (l' & IH1 & IH2)]; [exists []; split; [constructor|reflexivity]|]. exists (j' :: l'). split; [now constructor|].
    cbn [each map]. rewrite R. cbn [obind]. rewrite IH2. reflexivity. }
  exists l'. split; [now apply marshal_list_ok|exact H2].
Qed.
Lemma rotation_full l : forall n, Forall real32 l -> n = length l ->
  Json.rotation n (map (fun f => JNum (f64_of_f32 f)) l) = OK l.
Proof.
  induction l as [|f l IH]; intros n H ->; [reflexivity|]. apply Forall_cons_iff in H as [Hf H]. cbn [length map Json.rotation].
  rewrite (IH _ H eq_refl). cbn [obind]. rewrite jf_back by exact Hf. reflexivity.
Qed.
Lemma unclosed_ascii s : ascii (b64_unclosed s) = true.
Proof.
  unfold ascii, b64_unclosed. generalize (firstn (length s / 3 * 3) s). intros u. apply forallb_forall. intros b Hb.
  pose proof (b64_encode_in u) as H. rewrite forallb_forall in H. specialize (H b Hb). destruct b; try reflexivity; discriminate H.
Qed.
Lemma unbase64_unclosed s : unbase64 (b64_unclosed s) = threes s.
Proof. unfold unbase64, b64_unclosed, threes. now rewrite b64_decode_encode. Qed.

Ltac by_type :=
  cbn [ValueFromJSON]; cbv zeta;
  repeat match goal with |- (if (?a =? ?b)%N then _ else _) = _ =>
    first [change (a =? b)%N with false | change (a =? b)%N with true]; cbv iota end.
Ltac done_value E := eexists; split; [exact E|]; by_type.
Theorem value_trip v st rnd : jsonable v -> (forall q, v <> RReference q) ->
  exists j j', ValueToJSON rnd v st = OK (j, st) /\ marshal j = Some j' /\ ValueFromJSON other j' (rtype v) = OK (json_value v).
Proof.
  intros H Hr.
  assert (G : exists j, ValueToJSON rnd v st = OK (j, st) /\ trips (fun j' => ValueFromJSON other j' (rtype v)) j (OK (json_value v))).
  2:{ destruct G as (j & G1 & j' & G2 & G3). eauto. }
  destruct v as [s|s|s|s|b|n|f|f|sc o|xs xo ys yo|o d|r t b l bo f|x y z|n|r g b|x y|v|p rot|n|q|x y z|x y|ks|ks|a b|a b c d|c d f e fw ew|r g b|n|s|t o|a b c|a b c d]; cbn [jsonable] in H; cbn [ValueToJSON rtype json_value];
    try (now destruct H); try (now destruct (Hr _ eq_refl)); (eexists; split; [reflexivity|]).
  - exists (JStr s). cbn [marshal]. rewrite utf8_fix_id by exact H. split; [reflexivity|]. by_type. reflexivity.
  - exists (JStr (b64_unclosed s)). cbn [marshal]. rewrite utf8_fix_id by (apply ascii_utf8, unclosed_ascii). split; [reflexivity|]. by_type. now rewrite unbase64_unclosed.
  - exists (JStr s). cbn [marshal]. rewrite utf8_fix_id by exact H. split; [reflexivity|]. by_type. reflexivity.
  - destruct s as [|x s]; [exists JNull; split; [reflexivity|]; by_type; reflexivity|].
    exists (JStr (x :: s)). cbn [marshal]. rewrite utf8_fix_id by exact H. split; [reflexivity|]. by_type. reflexivity.
  - exists (JBool b). split; [reflexivity|]. by_type. reflexivity.
  - exists (JNum (f64_of_Z n)). split; [now apply marshal_i32|]. by_type. now rewrite to_i32_back.
  - exists (JNum (f64_of_f32 f)). split; [now apply marshal_jf|]. by_type. now rewrite jf_back.
  - exists (JNum f). split; [cbn [marshal]; now rewrite H|]. by_type. reflexivity.
  - destruct H as [H1 H2]. destruct (trip_udim _ _ H1 H2) as (j & E & R). exists j. split; [exact E|].
    unfold j_udim in E. destruct j; by_type; try discriminate R; rewrite R; reflexivity.
  - destruct H as (H1 & H2 & H3 & H4). destruct (trip_udim _ _ H1 H2) as (j1 & E1 & R1), (trip_udim _ _ H3 H4) as (j2 & E2 & R2).
    fixed [("x", j1); ("y", j2)]%string F r E. exists (JObj r). split; [exact E|]. by_type. look F. unfold must. rewrite R1. cbn [obind]. rewrite R2. reflexivity.
  - destruct H as (H1 & H2). destruct (trip_vec3 _ H1) as (j1 & E1 & R1), (trip_vec3 _ H2) as (j2 & E2 & R2).
    fixed [("origin", j1); ("direction", j2)]%string F r E. exists (JObj r). split; [exact E|]. by_type. look F. unfold must. rewrite R1. cbn [obind]. rewrite R2. reflexivity.
  - fixed [("right", JBool r); ("top", JBool t); ("back", JBool b); ("left", JBool l); ("bottom", JBool bo); ("front", JBool f)]%string F m E.
    exists (JObj m). split; [exact E|]. by_type. unfold boolean. look F. reflexivity.
  - fixed [("x", JBool x); ("y", JBool y); ("z", JBool z)]%string F m E.
    exists (JObj m). split; [exact E|]. by_type. unfold boolean. look F. reflexivity.
  - exists (JNum (f64_of_Z (Z.of_N n))). split; [now apply marshal_jn|]. by_type. now rewrite to_u32_back.
  - destruct H as (H1 & H2 & H3). destruct (trip_color3 _ _ _ H1 H2 H3) as (j & E & R). exists j. split; [exact E|].
    destruct j; by_type; try discriminate R; rewrite R; reflexivity.
  - destruct H as (H1 & H2). destruct (trip_vec2 _ _ H1 H2) as (j & E & R). exists j. split; [exact E|].
    destruct j; by_type; try discriminate R; rewrite R; reflexivity.
  - destruct (trip_vec3 _ H) as (j & E & R). exists j. split; [exact E|].
    destruct j; by_type; try discriminate R; rewrite R; reflexivity.
  - destruct H as (H1 & H2 & H3). destruct (trip_vec3 _ H1) as (j1 & E1 & R1).
    fixed [("position", j1); ("rotation", JArr (map (fun f => JNum (f64_of_f32 f)) rot))]%string F r E.
    { apply marshal_list_ok. clear - H3. induction H3 as [|x l Hx Hl IH]; cbn [map]; constructor; [now apply marshal_jf|exact IH]. }
    exists (JObj r). split; [exact E|]. by_type. look F. unfold must. rewrite R1. cbn [obind].
    rewrite (rotation_full rot 9 H3) by now symmetry. reflexivity.
  - exists (JNum (f64_of_Z (Z.of_N n))). split; [now apply marshal_jn|]. by_type. now rewrite to_u32_back.
  - destruct H as (H1 & H2 & H3). fixed [("x", JNum (f64_of_Z x)); ("y", JNum (f64_of_Z y)); ("z", JNum (f64_of_Z z))]%string F r E.
    exists (JObj r). split; [exact E|]. by_type. unfold num. look F. cbn [obind]. now rewrite !to_i16_back by assumption.
  - destruct H as (H1 & H2). fixed [("x", JNum (f64_of_Z x)); ("y", JNum (f64_of_Z y))]%string F r E.
    exists (JObj r). split; [exact E|]. by_type. unfold num. look F. cbn [obind]. now rewrite !to_i16_back by assumption.
  - destruct (trip_each from_nskey (fun k => obj [("time", jf (ns_time k)); ("value", jf (ns_value k)); ("envelope", jf (ns_env k))]%string) (fun k => k) ks) as (l' & E & R).
    { eapply Forall_impl; [|exact H]. intros k Hk. now apply trip_nskey. }
    rewrite map_id in R. exists (JArr l'). split; [exact E|]. by_type. rewrite R. reflexivity.
  - destruct (trip_each from_cskey (fun k => obj [("time", jf (cs_time k)); ("value", j_color3 (cs_r k) (cs_g k) (cs_b k)); ("envelope", jf (cs_env k))]%string) (fun k => k) ks) as (l' & E & R).
    { eapply Forall_impl; [|exact H]. intros k Hk. now apply trip_cskey. }
    rewrite map_id in R. exists (JArr l'). split; [exact E|]. by_type. rewrite R. reflexivity.
  - destruct H as (H1 & H2). fixed [("min", JNum (f64_of_f32 a)); ("max", JNum (f64_of_f32 b))]%string F r E.
    exists (JObj r). split; [exact E|]. by_type. unfold num32, num. look F. cbn [obind]. now rewrite !jf_back by assumption.
  - destruct H as (H1 & H2 & H3 & H4). destruct (trip_vec2 _ _ H1 H2) as (j1 & E1 & R1), (trip_vec2 _ _ H3 H4) as (j2 & E2 & R2).
    fixed [("min", j1); ("max", j2)]%string F r E. exists (JObj r). split; [exact E|]. by_type. look F. unfold must. rewrite R1. cbn [obind]. rewrite R2. reflexivity.
  - destruct H as (H1 & H2 & H3 & H4 & H5).
    fixed [("custom_physics", JBool c); ("density", JNum (f64_of_f32 d)); ("friction", JNum (f64_of_f32 f)); ("elasticity", JNum (f64_of_f32 e));
                 ("friction_weight", JNum (f64_of_f32 fw)); ("elasticity_weight", JNum (f64_of_f32 ew))]%string F r E.
    exists (JObj r). split; [exact E|]. by_type. unfold num32, num, boolean. look F. cbn [obind]. now rewrite !jf_back by assumption.
  - fixed [("r", JNum (f64_of_Z (Z.of_N (b2N r)))); ("g", JNum (f64_of_Z (Z.of_N (b2N g)))); ("b", JNum (f64_of_Z (Z.of_N (b2N b))))]%string F m E.
    exists (JObj m). split; [exact E|]. by_type. unfold num. look F. cbn [obind]. now rewrite !to_u8_back.
  - exists (JNum (f64_of_Z n)). split; [now apply marshal_ji|]. by_type. now rewrite to_i64_back.
  - exists (JStr (b64_unclosed s)). cbn [marshal]. rewrite utf8_fix_id by (apply ascii_utf8, unclosed_ascii). split; [reflexivity|]. by_type. now rewrite unbase64_unclosed.
  - exists JNull. split; [reflexivity|]. by_type. reflexivity.
  - exists JNull. split; [reflexivity|]. by_type. reflexivity.
Qed.
End Values.
