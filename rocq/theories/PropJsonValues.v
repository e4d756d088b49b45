(** PropJsonValues.v - C80: the meaning of JSON values. *)
From Coq Require Import QArith.
From Verif Require Import Base RbxlValues RbxValues Tree XmlText SpecBase64 PropBase64 Ieee Json JsonProofs JsonDec JsonRead SpecDeclare DeclareNumbers SpecJson SpecJsonRead.
Local Open Scope nat_scope.

Lemma rounds_of f : rounds f (f32_of_f64 f).
Proof.
  split.
  - intros x R. destruct (convert_nearest F64 F32 f x F64_ok F32_ok R) as [A B]. split; [exact A|]. intros E. unfold f32_of_f64. rewrite B by exact E.
    now destruct (f =? 0)%N.
  - intros neg ->. now destruct neg.
Qed.
Section V.
Variable other : Z -> Z -> N -> Z.
Lemma converts_of lo n hi f : (hi = lo + 2 ^ n - 1)%Z -> converts lo n f (to_int other lo hi f).
Proof. intros -> x y R T B. unfold to_int. apply (f_to_int_spec (fun _ => other) F64 lo _ _ f x y F64_ok R T). lia. Qed.
Lemma int_of_16 f : int_of 16 f (to_i16 other f).
Proof. apply converts_of. reflexivity. Qed.
Lemma int_of_32 f : int_of 32 f (to_i32 other f).
Proof. apply converts_of. reflexivity. Qed.
Lemma int_of_64 f : int_of 64 f (to_i64 other f).
Proof. apply converts_of. reflexivity. Qed.
Lemma uint_of_32 f : uint_of 32 f (Z.to_N (to_u32 other f)).
Proof.
  intros x y R T B. pose proof (converts_of 0 32 (2 ^ 32 - 1) f eq_refl x y R T B) as E. change (to_u32 other f = y) in E. rewrite E. apply Z2N.id. lia.
Qed.
Lemma uint_of_8 f : uint_of 8 f (b2N (N2b (Z.to_N (to_u8 other f)))).
Proof.
  intros x y R T B. pose proof (converts_of 0 8 (2 ^ 8 - 1) f eq_refl x y R T B) as E. change (to_u8 other f = y) in E. rewrite E.
  rewrite b2N_N2b. rewrite N.mod_small by lia. apply Z2N.id. lia.
Qed.

(** Inversion of the reader's steps *)
Lemma bnd {A B} (o : jout A) (f : A -> jout B) r : obind o f = OK r -> exists a, o = OK a /\ f a = OK r.
Proof. destruct o; cbn; try discriminate. eauto. Qed.
Lemma num_has m k f : num m k = OK f -> has m k (JNum f).
Proof. unfold num, member, has. destruct (mfind m (str k)) as [[]|]; try discriminate. intros E. injection E as <-. reflexivity. Qed.
Lemma bool_has m k b : boolean m k = OK b -> has m k (JBool b).
Proof. unfold boolean, member, has. destruct (mfind m (str k)) as [[]|]; try discriminate. intros E. injection E as <-. reflexivity. Qed.
Lemma num32_in m k g : num32 m k = OK g -> single_in m k g.
Proof. intros E. apply bnd in E as (f & E & R). injection R as <-. exists f. split; [now apply num_has|apply rounds_of]. Qed.
Lemma must_some {A} (o : jout (option A)) a : must o = OK a -> o = OK (Some a).
Proof. intros E. apply bnd in E as ([x|] & E & R); [|discriminate R]. injection R as <-. exact E. Qed.
Lemma has_member m k v : member m k = v -> v <> JNull -> has m k v.
Proof. unfold member, has. destruct (mfind m (str k)); [congruence|congruence]. Qed.
Ltac inv E := 
  repeat match type of E with obind _ _ = OK _ => let a := fresh "a" in let H := fresh "H" in apply bnd in E as (a & H & E) end.
Lemma udim_is v s o : from_udim other v = OK (Some (s, o)) -> is_udim v s o.
Proof.
  unfold from_udim. destruct v; try discriminate. intros E. inv E. injection E as <- <-. constructor; [now apply num32_in|].
  exists a0. split; [now apply num_has|apply int_of_32].
Qed.
Lemma color3_is v r g b : from_color3 v = OK (Some (r, g, b)) -> is_color3 v r g b.
Proof. unfold from_color3. destruct v; try discriminate. intros E. inv E. injection E as <- <- <-. constructor; now apply num32_in. Qed.
Lemma vec2_is v x y : from_vec2 v = OK (Some (x, y)) -> is_vec2 v x y.
Proof. unfold from_vec2. destruct v; try discriminate. intros E. inv E. injection E as <- <-. constructor; now apply num32_in. Qed.
Lemma vec3_is v x : from_vec3 v = OK (Some x) -> is_vec3 v x.
Proof. unfold from_vec3. destruct v; try discriminate. intros E. inv E. injection E as <-. constructor; now apply num32_in. Qed.
Lemma member_udim m k s o : must (from_udim other (member m k)) = OK (s, o) -> has m k (member m k) /\ is_udim (member m k) s o.
Proof. intros E. apply must_some, udim_is in E. split; [apply has_member; [reflexivity|]; intros Q; rewrite Q in E; inversion E|exact E]. Qed.
Lemma member_vec2 m k x y : must (from_vec2 (member m k)) = OK (x, y) -> has m k (member m k) /\ is_vec2 (member m k) x y.
Proof. intros E. apply must_some, vec2_is in E. split; [apply has_member; [reflexivity|]; intros Q; rewrite Q in E; inversion E|exact E]. Qed.
Lemma member_vec3 m k x : must (from_vec3 (member m k)) = OK x -> has m k (member m k) /\ is_vec3 (member m k) x.
Proof. intros E. apply must_some, vec3_is in E. split; [apply has_member; [reflexivity|]; intros Q; rewrite Q in E; inversion E|exact E]. Qed.
Lemma member_color3 m k r g b : must (from_color3 (member m k)) = OK (r, g, b) -> has m k (member m k) /\ is_color3 (member m k) r g b.
Proof. intros E. apply must_some, color3_is in E. split; [apply has_member; [reflexivity|]; intros Q; rewrite Q in E; inversion E|exact E]. Qed.
Lemma rotation_is n : forall l r, rotation n l = OK r -> length r = n /\
  forall i, i < n -> match nth_error l i with Some x => exists f, x = JNum f /\ rounds f (nth i r 1%N) | None => nth i r 1%N = 0%N end.
Proof.
  induction n as [|n IH]; intros l r E.
  - injection E as <-. split; [reflexivity|]. intros i Hi. lia.
  - destruct l as [|v l]; cbn [rotation] in E.
    + injection E as <-. change (0%N :: repeat 0%N n) with (repeat 0%N (S n)). split; [apply repeat_length|]. intros i Hi. replace (nth_error [] i) with (@None jv) by now destruct i.
      assert (G : forall k j, j < k -> nth j (repeat 0%N k) 1%N = 0%N) by (induction k as [|k IHk]; intros [|j] Hj; cbn; try lia; apply IHk; lia). now apply G.
    + destruct v; try discriminate. inv E. injection E as <-. destruct (IH _ _ H) as [L1 L2]. split; [cbn; now rewrite L1|].
      intros [|i] Hi; cbn [nth_error nth]; [exists f; split; [reflexivity|apply rounds_of]|apply L2; lia].
Qed.
Lemma nskey_is v k : from_nskey v = OK k -> is_nskey v k.
Proof.
  unfold from_nskey. destruct v; try (intros E; injection E as <-; constructor; discriminate).
  intros E. inv E. injection E as <-. constructor; now apply num32_in.
Qed.
Lemma cskey_is v k : from_cskey v = OK k -> is_cskey v k.
Proof.
  unfold from_cskey. destruct v; try (intros E; injection E as <-; constructor; discriminate).
  intros E. apply bnd in E as (t & Et & E). apply bnd in E as ([[r g] b] & Ec & E). apply bnd in E as (e & Ee & E). injection E as <-.
  apply member_color3 in Ec as [C1 C2]. econstructor; eauto using num32_in.
Qed.
Lemma each_is {A} (f : jv -> jout A) (P : jv -> A -> Prop) : (forall v a, f v = OK a -> P v a) -> forall l r, each f l = OK r -> Forall2 P l r.
Proof.
  intros Hf. induction l as [|v l IH]; intros r E; cbn [each] in E; [injection E as <-; constructor|]. inv E. injection E as <-. constructor; auto.
Qed.
Lemma binary_is s : is_binary s (unbase64 s).
Proof.
  unfold is_binary, unbase64. destruct (b64_decode s) eqn:E; [left; now apply C98_decode|right; split; [|reflexivity]].
  intros b H. apply C98_decode in H. congruence.
Qed.

(** Whatever the reader makes of a JSON value is what the value stands for. *)
Lemma value_denotes v : forall t r, ValueFromJSON other v t = OK (Some r) -> denotes t v r.
Proof.
  induction v as [|b|f|s|l IH|m IH|t'] using jv_ind2; intros t r; cbn [ValueFromJSON]; cbv zeta;
    repeat match goal with |- (if (?a =? ?b)%N then _ else _) = _ -> _ => destruct (N.eqb_spec a b) as [->|_] end; intros E; try discriminate E.
  all: try (injection E as <-; constructor; first [apply binary_is|apply int_of_32|apply int_of_64|apply uint_of_32|apply rounds_of]; fail).
  all: try (injection E as <-; constructor; fail).
  - apply bnd in E as (ks & E & R). injection R as <-. constructor. eapply each_is; [exact nskey_is|exact E].
  - apply bnd in E as (ks & E & R). injection R as <-. constructor. eapply each_is; [exact cskey_is|exact E].
  - apply bnd in E as ([[s o]|] & E & R); [|discriminate R]. injection R as <-. constructor. exact (udim_is _ _ _ E).
  - apply bnd in E as (a & E & R). injection R as <-. apply bnd in E as ([xs xo] & E1 & E). apply bnd in E as ([ys yo] & E2 & E). injection E as <-.
    apply member_udim in E1 as [A1 A2]. apply member_udim in E2 as [B1 B2]. econstructor; eassumption.
  - apply bnd in E as (a & E & R). injection R as <-. apply bnd in E as (o & E1 & E). apply bnd in E as (d & E2 & E). injection E as <-.
    apply member_vec3 in E1 as [A1 A2]. apply member_vec3 in E2 as [B1 B2]. econstructor; eassumption.
  - apply bnd in E as (a & E & R). injection R as <-. inv E. injection E as <-. constructor; now apply bool_has.
  - apply bnd in E as (a & E & R). injection R as <-. inv E. injection E as <-. constructor; now apply bool_has.
  - apply bnd in E as ([[[x y] z]|] & E & R); [|discriminate R]. injection R as <-. constructor. exact (color3_is _ _ _ _ E).
  - apply bnd in E as ([[x y]|] & E & R); [|discriminate R]. injection R as <-. constructor. exact (vec2_is _ _ _ E).
  - apply bnd in E as ([x|] & E & R); [|discriminate R]. injection R as <-. constructor. exact (vec3_is _ _ E).
  - apply bnd in E as (a & E & R). injection R as <-. apply bnd in E as (p & E1 & E). apply member_vec3 in E1 as [A1 A2].
    unfold member in E. destruct (mfind m (str "rotation")) as [[| | | |l| |]|] eqn:Q.
    5:{ apply bnd in E as (r & E & R). injection R as <-. econstructor; [exact A1|exact A2|]. rewrite Q. exact (rotation_is 9 l r E). }
    all: injection E as <-; econstructor; [exact A1|exact A2|]; rewrite Q; split; [reflexivity|];
      intros i Hi; assert (G : In i (seq 0 9)) by (apply in_seq; lia); cbn in G; repeat (destruct G as [<-|G]; [reflexivity|]); destruct G.
  - apply bnd in E as (a & E & R). injection R as <-. inv E. injection E as <-. constructor; (eexists; split; [apply num_has; eassumption|apply int_of_16]).
  - apply bnd in E as (a & E & R). injection R as <-. inv E. injection E as <-. constructor; (eexists; split; [apply num_has; eassumption|apply int_of_16]).
  - apply bnd in E as (a & E & R). injection R as <-. inv E. injection E as <-. constructor; now apply num32_in.
  - apply bnd in E as (a & E & R). injection R as <-. apply bnd in E as ([x y] & E1 & E). apply bnd in E as ([z w] & E2 & E). injection E as <-.
    apply member_vec2 in E1 as [A1 A2]. apply member_vec2 in E2 as [B1 B2]. econstructor; eassumption.
  - apply bnd in E as (a & E & R). injection R as <-. inv E. injection E as <-. constructor; first [now apply bool_has|now apply num32_in].
  - apply bnd in E as (a & E & R). injection R as <-. inv E. injection E as <-. constructor; (eexists; split; [apply num_has; eassumption|apply uint_of_8]).
  - destruct (member m "type") as [| | |name| | |] eqn:Ht; try discriminate E. apply has_member in Ht; [|discriminate].
    assert (G : (mfind m (str "value") = None \/ has m "value" JNull) /\ r = mkNone (type_of_name name) \/
      exists v x, has m "value" v /\ v <> JNull /\ denotes (type_of_name name) v x /\ r = mkSome x).
    { clear Ht. unfold has. induction IH as [|[k v] m Hv Hm IHm]; [left; split; [left; reflexivity|congruence]|]. cbn [mfind]. destruct (bytes_eqb k (str "value")); [|exact (IHm E)].
      cbn [snd] in Hv. destruct v; try (left; split; [right; reflexivity|congruence]); right.
      all: apply bnd in E as ([x|] & E & R); [|discriminate R]; injection R as <-; do 2 eexists; (split; [reflexivity|]); (split; [discriminate|]); (split; [apply Hv, E|reflexivity]). }
    destruct G as [[G ->]|(v & x & G1 & G2 & G3 & ->)]; econstructor; eassumption.
Qed.
End V.

(** C80 *)
Theorem C80_values : forall other v t r, ValueFromJSON other v t = OK (Some r) -> denotes t v r.
Proof. exact value_denotes. Qed.
(** A color whose first component, 255.5, loses its fraction, and a keypoint
    that is not an object. *)
Theorem C80_example : forall other,
  ValueFromJSON other (obj [("r", JNum 0x406ff00000000000); ("g", JNum 0); ("b", JNum 0x8000000000000000)]%string) TypeColor3uint8 =
    OK (Some (RColor3uint8 xff x00 x00)) /\
  ValueFromJSON other (JArr [JNull; obj [("time", JNum 0x3ff0000000000000); ("value", JNum 0); ("envelope", JNum 0x8000000000000000)]%string]) TypeNumberSequence =
    OK (Some (RNumberSequence [NSK 0 0 0; NSK 0x3f800000 0 0x80000000])).
Proof. intros other. split; vm_compute; reflexivity. Qed.
