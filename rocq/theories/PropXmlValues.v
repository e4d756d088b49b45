(** PropXmlValues.v - properties of XML values: what is kept, that what a file
    holds is stable, and what is lost. *)
From Verif Require Import Base RbxlValues RbxValues Tree SpecValues SpecCodec XmlText XmlDoc XmlCodec SpecXml XmlTextProofs XmlFloats XmlFloatsFit SpecXmlValues.
Local Notation string := String.string.

(** ** Text *)
Lemma no_cr_In s : no_cr s = true <-> ~ In x0d s.
Proof.
  unfold no_cr. rewrite forallb_forall. split.
  - intros H Hin. specialize (H _ Hin). discriminate H.
  - intros H b Hb. destruct (Byte.eqb b x0d) eqn:E; [|reflexivity]. apply Byte.byte_dec_bl in E. subst b. contradiction.
Qed.
Lemma nl_out s : no_cr (nl s) = true /\ length (nl s) <= length s.
Proof.
  assert (G : forall n s, length s <= n -> no_cr (nl s) = true /\ length (nl s) <= length s).
  { induction n as [|n IH]; intros [|c r] Hl; cbn [length] in Hl; try lia; try (split; [reflexivity|cbn; lia]).
    destruct (IH r ltac:(lia)) as [H L]. cbn [nl]. destruct (Byte.eqb c x0d) eqn:Ec.
    - destruct r as [|c' r']; [split; [reflexivity|cbn; lia]|]. cbn [length] in *. destruct (Byte.eqb c' x0a).
      + destruct (IH r' ltac:(lia)) as [H' L']. split; [exact H'|cbn [length]; lia].
      + split; [exact H|cbn [length] in *; lia].
    - split; [|cbn [length]; lia]. change (no_cr (c :: nl r)) with (negb (Byte.eqb c x0d) && no_cr (nl r)). rewrite Ec. exact H. }
  exact (G (length s) s (le_n _)).
Qed.
Lemma nl_keeps s : nl s = s <-> ~ In x0d s.
Proof.
  split; [intros E|intros H; apply nl_no_cr; now apply no_cr_In]. apply no_cr_In. rewrite <- E. apply nl_out.
Qed.
Lemma nl_nl s : nl (nl s) = nl s.
Proof. apply nl_no_cr. apply nl_out. Qed.
Lemma nl_text_keeps s : nl_text s = s <-> cr_leading s.
Proof.
  induction s as [|c s IH]; [easy|]. cbn [nl_text cr_leading]. destruct (isSpace c).
  - rewrite <- IH. split; [intros E; now injection E|now intros ->].
  - apply (nl_keeps (c :: s)).
Qed.
Lemma nl_text_twice s : nl_text (nl_text s) = nl_text s.
Proof.
  induction s as [|c s IH]; [reflexivity|]. cbn [nl_text]. destruct (isSpace c) eqn:E.
  - cbn [nl_text]. rewrite E. now rewrite IH.
  - assert (Ec : Byte.eqb c x0d = false) by (destruct c; try reflexivity; discriminate E). cbn [nl]. rewrite Ec. cbn [nl_text]. rewrite E. cbn [nl]. rewrite Ec. now rewrite nl_nl.
Qed.

(** ** Numbers *)
Section Values.
Variable fl : floats.
Hypothesis SC : strconv_ok fl.
Lemma again9_keeps f : f32 f -> again9 fl f = f <-> number32 f.
Proof.
  intros Hf. rewrite (again9_exact fl SC f Hf). unfold number32, abs32.
  assert (E : (Z.of_N f mod 2 ^ 31)%Z = Z.of_N (f mod 2 ^ 31)) by (rewrite N2Z.inj_mod; reflexivity). rewrite E.
  destruct (Z.ltb_spec 0x7F800000 (Z.of_N (f mod 2 ^ 31))) as [L|L].
  - split; [intros <-; now right|]. intros [H| ->]; [lia|reflexivity].
  - split; [intros _; left; lia|reflexivity].
Qed.
Lemma again9_f32 f : f32 f -> f32 (again9 fl f) /\ again9 fl (again9 fl f) = again9 fl f.
Proof.
  intros Hf. assert (G : f32 (again9 fl f)) by (rewrite (again9_exact fl SC f Hf); destruct (_ <? _)%Z; [reflexivity|exact Hf]). split; [exact G|].
  apply again9_keeps; [exact G|]. rewrite (again9_exact fl SC f Hf). destruct (_ <? _)%Z eqn:E; [now right|]. left. unfold abs32 in E.
  assert (E' : (Z.of_N f mod 2 ^ 31)%Z = Z.of_N (f mod 2 ^ 31)) by (rewrite N2Z.inj_mod; reflexivity). rewrite E' in E. apply Z.ltb_ge in E. lia.
Qed.
Lemma again6_twice f : f32 f -> normal32 f -> again6 fl (again6 fl f) = again6 fl f.
Proof. intros Hf Hn. pose proof (text_again6 fl SC f Hf Hn) as E. unfold again6 at 1, again32. unfold again6 in E. fold (again6 fl f) in E. rewrite E. reflexivity. Qed.
Lemma again64_twice f : f64 f -> normal64 f -> again64 fl (again64 fl f) = again64 fl f.
Proof. intros Hf Hn. pose proof (text_again64 fl SC f Hf Hn) as E. unfold again64 at 1. rewrite E. reflexivity. Qed.
Lemma map_keeps {A} (g : A -> A) P l : (forall a, In a l -> g a = a <-> P a) -> map g l = l <-> Forall P l.
Proof.
  induction l as [|a l IH]; intros H; [easy|]. cbn [map]. rewrite Forall_cons_iff. rewrite <- IH by (intros b Hb; apply H; now right). rewrite <- (H a (or_introl eq_refl)).
  split; [intros E; injection E; tauto|]. intros [E1 E2]. now rewrite E1, E2.
Qed.
Lemma vec3_keeps v : wf_vec3 v -> vec3_map (again9 fl) v = v <-> vec3_all number32 v.
Proof.
  destruct v as [x y z]. intros (Hx & Hy & Hz). cbn in Hx, Hy, Hz. unfold vec3_map, vec3_all. cbn [v3x v3y v3z]. rewrite <- !again9_keeps by assumption. split; [intros E; injection E; tauto|]. intros (-> & -> & ->). reflexivity.
Qed.
Lemma rot_keeps rot : Forall f32 rot -> map (again9 fl) rot = rot <-> Forall number32 rot.
Proof. intros H. apply map_keeps. intros a Ha. apply again9_keeps. rewrite Forall_forall in H. now apply H. Qed.
Lemma named_type_keeps t : named_type t = t <-> type_named t \/ t = TypeInvalid.
Proof.
  unfold named_type, type_named. destruct (existsb (fun e => (t =? fst e)%N) canon_tags) eqn:E.
  - split; [|reflexivity]. intros _. left. apply existsb_exists in E as ([t' n] & Hin & Ht). apply N.eqb_eq in Ht. cbn [fst] in Ht. subst t'. now exists n.
  - split; [intros <-; now right|]. intros [[n Hn]| ->]; [exfalso|reflexivity]. assert (existsb (fun e => (t =? fst e)%N) canon_tags = true); [|congruence].
    apply existsb_exists. exists (t, n). split; [exact Hn|]. apply N.eqb_refl.
Qed.
Definition six (f : N) : Prop := again6 fl f = f.
Definition nine (f : N) : Prop := again64 fl f = f.
Lemma Some_inj {A} (a b : A) : Some a = Some b <-> a = b.
Proof. split; [intros E; injection E; easy|now intros ->]. Qed.

Lemma style_01 style : (b2N style <=? 1)%N = true <-> style = x00 \/ style = x01.
Proof. split; [intros H; destruct style; try discriminate H; [now left|now right]|]. now intros [-> | ->]. Qed.
Lemma ns_keeps k : NSK (again6 fl (ns_time k)) (again6 fl (ns_value k)) (again6 fl (ns_env k)) = k <-> six (ns_time k) /\ six (ns_value k) /\ six (ns_env k).
Proof. destruct k as [a b c]. cbn [ns_time ns_value ns_env]. unfold six. split; [intros E; injection E; tauto|]. intros (-> & -> & ->). reflexivity. Qed.
Lemma cs_keeps k : CSK (again6 fl (cs_time k)) (again6 fl (cs_r k)) (again6 fl (cs_g k)) (again6 fl (cs_b k)) (again6 fl (cs_env k)) = k <->
  six (cs_time k) /\ six (cs_r k) /\ six (cs_g k) /\ six (cs_b k) /\ six (cs_env k).
Proof. destruct k as [a b c d e]. cbn [cs_time cs_r cs_g cs_b cs_env]. unfold six. split; [intros E; injection E; tauto|]. intros (-> & -> & -> & -> & ->). reflexivity. Qed.


(** ** C53: exactly these values are kept *)
Theorem C53_kept : forall v, wf_rvalue v -> xml_value fl v = Some v <-> kept six nine v.
Proof.
  intros v Hw. destruct v; cbn [xml_value kept wf_rvalue] in *; try (split; [easy|reflexivity]).
  - rewrite <- nl_text_keeps. split; [intros E; injection E; easy|now intros ->].
  - rewrite <- nl_text_keeps. split; [intros E; injection E; easy|now intros ->].
  - rewrite <- nl_text_keeps. split; [intros E; injection E; easy|now intros ->].
  - rewrite <- again9_keeps by exact Hw. split; [intros E; injection E; easy|now intros ->].
  - unfold nine. split; [intros E; injection E; easy|now intros ->].
  - rewrite <- again9_keeps by tauto. split; [intros E; injection E; easy|now intros ->].
  - rewrite <- !again9_keeps by tauto. split; [intros E; injection E; tauto|now intros [-> ->]].
  - destruct Hw as [H1 H2]. rewrite <- (vec3_keeps origin) by exact H1. split.
    + intros E. assert (E' : vec3_map (again9 fl) origin = origin /\ vec3_map (again9 fl) origin = direction) by (injection E; tauto). destruct E' as [E1 E2]. split; congruence.
    + intros [E ->]. now rewrite E.
  - split; [intros E; discriminate E|easy].
  - rewrite <- !again9_keeps by tauto. split; [intros E; injection E; tauto|now intros (-> & -> & ->)].
  - rewrite <- !again9_keeps by tauto. split; [intros E; injection E; tauto|now intros (-> & ->)].
  - rewrite <- vec3_keeps by exact Hw. split; [intros E; apply (proj1 (Some_inj _ _)) in E; congruence|now intros ->].
  - destruct Hw as (H1 & _ & H2). rewrite <- vec3_keeps, <- rot_keeps by assumption. split; [intros E; apply (proj1 (Some_inj _ _)) in E; split; congruence|]. intros [E1 E2]. now rewrite E1, E2.
  - unfold int32_max. split; [intros E; apply (proj1 (Some_inj _ _)) in E; assert (N.min n (2 ^ 31 - 1) = n) by congruence; lia|]. intros H. f_equal. f_equal. lia.
  - destruct Hw as [_ Hw]. rewrite Some_inj. rewrite <- (map_keeps (fun k => NSK (again6 fl (ns_time k)) (again6 fl (ns_value k)) (again6 fl (ns_env k)))); [|intros k _; apply ns_keeps]. split; [congruence|]. intros E. now rewrite E.
  - destruct Hw as [_ Hw]. rewrite Some_inj. rewrite <- (map_keeps (fun k => CSK (again6 fl (cs_time k)) (again6 fl (cs_r k)) (again6 fl (cs_g k)) (again6 fl (cs_b k)) (again6 fl (cs_env k)))); [|intros k _; apply cs_keeps]. split; [congruence|]. intros E. now rewrite E.
  - unfold six. split; [intros E; injection E; tauto|now intros [-> ->]].
  - rewrite <- !again9_keeps by tauto. split; [intros E; injection E; tauto|now intros (-> & -> & -> & ->)].
  - destruct custom.
    + rewrite <- !again9_keeps by tauto. split; [intros E; injection E; tauto|now intros (-> & -> & -> & -> & ->)].
    + split; [intros E; injection E; intros; subst; tauto|now intros (-> & -> & -> & -> & ->)].
  - destruct v as [v|].
    + destruct v; try (split; [intros E; apply (proj1 (Some_inj _ _)) in E; congruence|easy]). cbn [wf_rvalue] in Hw. destruct Hw as (_ & H1 & _ & H2). rewrite <- vec3_keeps, <- rot_keeps by assumption.
      split; [intros E; apply (proj1 (Some_inj _ _)) in E; split; congruence|]. intros [E1 E2]. now rewrite E1, E2.
    + rewrite <- named_type_keeps. split; [intros E; apply (proj1 (Some_inj _ _)) in E; congruence|now intros ->].
  - rewrite <- !nl_text_keeps. destruct (N.ltb_spec weight (2 ^ 15)) as [L|L].
    + pose proof (style_01 style) as S. destruct (b2N style <=? 1)%N.
      * split; [intros E; apply (proj1 (Some_inj _ _)) in E|].
        -- split; [congruence|]. split; [congruence|]. left. split; [exact L|now apply S].
        -- intros (E1 & E2 & _). now rewrite E1, E2.
      * split; [discriminate|]. intros (_ & _ & [[_ H]|[_ ->]]); [now apply S in H|]. destruct S as [_ S]. now discriminate (S (or_introl eq_refl)).
    + split; [intros E; apply (proj1 (Some_inj _ _)) in E; assert (W : (2 ^ 15 - 1)%N = weight) by congruence; lia|]. intros (_ & _ & [[H _]|[H _]]); lia.
Qed.

(** The numbers that are written with fewer digits than they have are not
    close to zero. *)
Definition normal_value (v : rvalue) : Prop :=
  match v with
  | RDouble f => normal64 f
  | RNumberSequence ks => Forall (fun k => normal32 (ns_time k) /\ normal32 (ns_value k) /\ normal32 (ns_env k)) ks
  | RColorSequence ks => Forall (fun k => normal32 (cs_time k) /\ normal32 (cs_r k) /\ normal32 (cs_g k) /\ normal32 (cs_b k) /\ normal32 (cs_env k)) ks
  | RNumberRange a b => normal32 a /\ normal32 b
  | _ => True
  end.
Lemma again9_twice f : f32 f -> again9 fl (again9 fl f) = again9 fl f.
Proof. intros Hf. exact (proj2 (again9_f32 f Hf)). Qed.
Lemma vec3_twice v : wf_vec3 v -> vec3_map (again9 fl) (vec3_map (again9 fl) v) = vec3_map (again9 fl) v.
Proof. destruct v as [x y z]. intros (Hx & Hy & Hz). cbn in Hx, Hy, Hz. unfold vec3_map. cbn [v3x v3y v3z]. now rewrite (proj2 (again9_f32 x Hx)), (proj2 (again9_f32 y Hy)), (proj2 (again9_f32 z Hz)). Qed.
Lemma rot_twice rot : Forall f32 rot -> map (again9 fl) (map (again9 fl) rot) = map (again9 fl) rot.
Proof. intros H. rewrite map_map. apply map_ext_in. intros a Ha. rewrite Forall_forall in H. exact (proj2 (again9_f32 a (H a Ha))). Qed.
(** ** C53: what was read once is kept from then on *)
Theorem C53_stable : forall v v', wf_rvalue v -> normal_value v -> xml_value fl v = Some v' -> xml_value fl v' = Some v'.
Proof.
  intros v v' Hw Hn E. destruct v; cbn [xml_value wf_rvalue normal_value] in *; try (apply (proj1 (Some_inj _ _)) in E; subst v'); try reflexivity; cbn [xml_value].
  all: try (rewrite !nl_text_twice; reflexivity).
  all: try (rewrite !again9_twice by (first [exact Hw|tauto]); reflexivity).
  - now rewrite again64_twice.
  - destruct Hw as [H1 H2]. now rewrite vec3_twice.
  - now rewrite vec3_twice.
  - destruct Hw as (H1 & _ & H2). now rewrite vec3_twice, rot_twice.
  - f_equal. f_equal. lia.
  - destruct Hw as [_ Hw]. f_equal. f_equal. rewrite map_map. apply map_ext_in. intros k Hk. rewrite Forall_forall in Hw, Hn. destruct (Hw k Hk) as (A & B & C). destruct (Hn k Hk) as (A' & B' & C'). cbn [ns_time ns_value ns_env]. now rewrite !again6_twice.
  - destruct Hw as [_ Hw]. f_equal. f_equal. rewrite map_map. apply map_ext_in. intros k Hk. rewrite Forall_forall in Hw, Hn. destruct (Hw k Hk) as (A & B & C & D & F). destruct (Hn k Hk) as (A' & B' & C' & D' & F'). cbn [cs_time cs_r cs_g cs_b cs_env]. now rewrite !again6_twice.
  - destruct Hw as [A B], Hn as [A' B']. now rewrite !again6_twice.
  - destruct custom; apply (proj1 (Some_inj _ _)) in E; subst v'; cbn [xml_value]; [|reflexivity]. now rewrite !again9_twice by tauto.
  - assert (T : forall t, named_type (named_type t) = named_type t) by (intros t; unfold named_type at 2 3; destruct (existsb (fun e => (t =? fst e)%N) canon_tags) eqn:Et; [unfold named_type; now rewrite Et|reflexivity]).
    destruct v as [v|]; [destruct v|]; apply (proj1 (Some_inj _ _)) in E; subst v'; cbn [xml_value]; rewrite ?T; try reflexivity. cbn [wf_rvalue] in Hw. destruct Hw as (_ & H1 & _ & H2). now rewrite vec3_twice, rot_twice.
  - destruct (N.ltb_spec weight (2 ^ 15)) as [L|L].
    + destruct (b2N style <=? 1)%N eqn:Es; [|discriminate E]. apply (proj1 (Some_inj _ _)) in E. subst v'. cbn [xml_value]. rewrite Es, !nl_text_twice. now apply N.ltb_lt in L as ->.
    + apply (proj1 (Some_inj _ _)) in E. subst v'. cbn [xml_value]. now rewrite !nl_text_twice.
Qed.
End Values.
