(** JsonDoc.v - what the JSON reader makes of a document whose references are
    distinct. *)
From Coq Require Import Permutation.
From Verif Require Import Base RbxlValues RbxValues Tree RbxlCodec XmlText Ieee Json SpecValues SpecTree SpecCodec SpecJson TreeProofs
  JsonProofs RbxlFileProofs XmlTreeEnc JsonDec JsonRead JsonOrder SpecJsonRead PropJsonValues.
From Coq Require Import Lia.

Section Doc.
Variable other : Z -> Z -> N -> Z.
Variable ord : list (bytes * jv) -> list (bytes * jv).
Hypothesis Hord : any_members ord.

(** The properties of one instance *)
Definition outcome_of (p : ptr) (e : option effect) (old now : option rvalue) (new : list propref) (name : bytes) : Prop :=
  match e with
  | Some (Sets w) => now = Some w /\ forall x, In x new -> pr_prop x <> name
  | Some (Refers r) => now = old /\ (exists x, In x new /\ pr_prop x = name) /\ forall x, In x new -> pr_prop x = name -> pr_ref x = r
  | Some Breaks => False
  | None | Some Nothing => now = old /\ forall x, In x new -> pr_prop x <> name
  end.
Lemma props_gen p l : NoDup (map fst l) -> forall s i s', hget (jd_heap s) p = Some i -> props_from_json other p l s = OK s' ->
  exists i' new, jd_refs s' = jd_refs s /\ jd_props s' = jd_props s ++ new /\ length (jd_heap s') = length (jd_heap s) /\
    (forall q, q <> p -> hget (jd_heap s') q = hget (jd_heap s) q) /\ hget (jd_heap s') p = Some i' /\
    i_class i' = i_class i /\ i_ref i' = i_ref i /\ i_service i' = i_service i /\ i_children i' = i_children i /\
    (forall x, In x new -> pr_inst x = p) /\
    forall name, outcome_of p (option_map (effect_of other) (mfind l name)) (mfind (i_props i) name) (mfind (i_props i') name) new name.
Proof.
  induction l as [|[n jp] l IH]; intros Hn s i s' Hi E; cbn [map fst props_from_json] in *.
  { injection E as <-. exists i, []. rewrite app_nil_r. repeat split; try reflexivity; try assumption; intros x []. }
  inversion Hn as [|? ? N1 N2]; subst. rewrite prop_effect in E.
  assert (ML : mfind l n = None) by (destruct (mfind l n) eqn:Q; [destruct N1; apply mfind_key; eauto|reflexivity]).
  destruct (effect_of other jp) as [|r|w|] eqn:Ee; cbn [apply_effect] in E; try discriminate E.
  - cbn [obind] in E. destruct (IH N2 s i s' Hi E) as (i' & new & A1 & A2 & A3 & A4 & A5 & A6 & A7 & A8 & A9 & A10 & A11).
    exists i', new. repeat (split; [assumption|]). intros name. cbn [mfind]. specialize (A11 name). destruct (beqb_spec n name) as [->|]; [|exact A11].
    rewrite ML in A11. cbn [option_map] in *. rewrite Ee. exact A11.
  - cbn [obind] in E. match type of E with props_from_json _ _ _ ?s1 = _ => destruct (IH N2 s1 i s' Hi E) as (i' & new & A1 & A2 & A3 & A4 & A5 & A6 & A7 & A8 & A9 & A10 & A11) end.
    cbn [jd_refs jd_heap jd_props] in *.
    exists i', (PropRef p n r :: new). split; [assumption|]. split; [rewrite A2, <- app_assoc; reflexivity|]. repeat (split; [assumption|]).
    split; [intros x [<-|Hx]; [reflexivity|auto]|].
    intros name. cbn [mfind]. specialize (A11 name). destruct (beqb_spec n name) as [->|Hne].
    + rewrite ML in A11. cbn [option_map] in *. rewrite Ee. destruct A11 as [B1 B2]. split; [exact B1|]. split; [eexists; split; [left; reflexivity|reflexivity]|].
      intros x [<-|Hx] Hp; [reflexivity|]. destruct (B2 x Hx Hp).
    + destruct (option_map (effect_of other) (mfind l name)) as [[|r'|w|]|]; cbn [outcome_of] in *; try contradiction.
      * destruct A11 as [B1 B2]. split; [exact B1|]. intros x [<-|Hx]; [exact Hne|auto].
      * destruct A11 as (B1 & (x & B2 & B3) & B4). split; [exact B1|]. split; [exists x; split; [now right|exact B3]|]. intros y [<-|Hy] Hp; [contradiction|auto].
      * destruct A11 as [B1 B2]. split; [exact B1|]. intros x [<-|Hx]; [exact Hne|auto].
      * destruct A11 as [B1 B2]. split; [exact B1|]. intros x [<-|Hx]; [exact Hne|auto].
  - rewrite Hi in E. cbn [obind] in E. match type of E with props_from_json _ _ _ ?s1 = _ => destruct (IH N2 s1 (set_props i (mset (i_props i) n w)) s') as (i' & new & A1 & A2 & A3 & A4 & A5 & A6 & A7 & A8 & A9 & A10 & A11); [|exact E|] end.
    { cbn [jd_heap]. rewrite hget_hset, Nat.eqb_refl, Hi. reflexivity. }
    cbn [jd_refs jd_heap jd_props] in *. rewrite hset_length in A3.
    exists i', new. split; [assumption|]. split; [assumption|]. split; [assumption|].
    split; [intros q Hq; rewrite A4 by exact Hq; rewrite hget_hset; now apply Nat.eqb_neq in Hq as ->|]. repeat (split; [assumption|]).
    intros name. cbn [mfind]. specialize (A11 name). cbn [i_props set_props] in A11. rewrite mfind_mset in A11. destruct (beqb_spec n name) as [->|]; [|exact A11].
    rewrite ML in A11. cbn [option_map] in *. rewrite Ee. exact A11.
Qed.

(** ** The state of the reader *)
Definition half (s : jdst) (v : jv) (p : ptr) : Prop :=
  exists m i, v = JObj m /\ hget (jd_heap s) p = Some i /\ has m "class_name" (JStr (i_class i)) /\
    own_refs v = (match i_ref i with [] => [] | r => [r] end) /\ (i_service i = true <-> has m "is_service" (JBool true)) /\ i_children i = [] /\
    forall name, outcome_of p (option_map (effect_of other) (mfind (props_of v) name)) None (mfind (i_props i) name) (filter (fun e => pr_inst e =? p) (jd_props s)) name.
Record state (used : list bytes) (done : list (jv * ptr)) (s : jdst) : Prop := {
  st_refs : forall r q, mfind (jd_refs s) r = Some q -> In r used /\ exists i, hget (jd_heap s) q = Some i /\ i_ref i = r;
  st_used : forall r, In r used -> exists q, mfind (jd_refs s) r = Some q;
  st_heap : forall p i, hget (jd_heap s) p = Some i -> i_ref i = [] \/ mfind (jd_refs s) (i_ref i) = Some p;
  st_done : forall v p, In (v, p) done -> half s v p;
  st_props : forall e, In e (jd_props s) -> pr_inst e <= length (jd_heap s) }.
Lemma own_not_nil v r : In r (own_refs v) -> r <> [].
Proof.
  unfold own_refs. destruct v; try contradiction. destruct (mfind m (str "reference")) as [[]|]; try contradiction.
  destruct (IsEmptyReference s) eqn:E; [contradiction|]. intros [<-|[]] ->. discriminate E.
Qed.
Definition rf (v : jv) : bytes := match own_refs v with r :: _ => r | [] => [] end.
Lemma inst_for_eq v s : (forall r, In r (own_refs v) -> mfind (jd_refs s) r = None) ->
  inst_for v s = (S (length (jd_heap s)), Jdst (jd_heap s ++ [Inst [] (rf v) false [] []])
    (match own_refs v with r :: _ => mset (jd_refs s) r (S (length (jd_heap s))) | [] => jd_refs s end) (jd_props s)).
Proof.
  unfold inst_for, rf, own_refs. destruct v; cbn [index_obj]; try reflexivity. destruct (mfind m (str "reference")) as [[| | |r| | |]|]; try reflexivity.
  destruct (IsEmptyReference r); [reflexivity|]. intros H. rewrite (H r) by now left. reflexivity.
Qed.
Lemma hget_old h l q i : hget h q = Some i -> hget (h ++ l) q = Some i.
Proof. intros H. rewrite hget_app; [exact H|]. apply hget_some in H. lia. Qed.
Lemma hget_last h x q i : hget (h ++ [x]) q = Some i -> (q = S (length h) /\ i = x) \/ hget h q = Some i.
Proof.
  intros H. destruct (Nat.le_gt_cases q (length h)) as [L|L]; [right; rewrite hget_app in H by exact L; exact H|left].
  pose proof (hget_some _ _ _ H) as G. rewrite app_length in G. cbn [length] in G. assert (q = S (length h)) as -> by lia. rewrite hget_new in H. split; congruence.
Qed.
Lemma state_inst_for used done s v : state used done s -> NoDup (used ++ own_refs v) ->
  (forall r, In r (own_refs v) -> mfind (jd_refs s) r = None) /\
  state (used ++ own_refs v) done (snd (inst_for v s)).
Proof.
  intros HS Hn. assert (FR : forall r, In r (own_refs v) -> mfind (jd_refs s) r = None).
  { intros r Hr. destruct (mfind (jd_refs s) r) as [q|] eqn:E; [|reflexivity]. destruct (st_refs _ _ _ HS r q E) as [Hu _].
    clear - Hn Hr Hu. induction used as [|u used IH]; [destruct Hu|]. inversion Hn; subst. destruct Hu as [->|Hu]; [|auto]. destruct H1. apply in_or_app. now right. }
  split; [exact FR|]. rewrite inst_for_eq by exact FR. cbn [snd].
  assert (LEN : length (jd_heap s ++ [Inst [] (rf v) false [] []]) = S (length (jd_heap s))) by (rewrite app_length; cbn; lia).
  assert (OWN : own_refs v = [] \/ exists r, own_refs v = [r]).
  { unfold own_refs. destruct v; auto. destruct (mfind m (str "reference")) as [[]|]; auto. destruct (IsEmptyReference s0); eauto. }
  assert (NEW : forall r, In r (own_refs v) -> own_refs v = [r] /\ rf v = r).
  { intros r Hr. destruct OWN as [E|[r' E]]; unfold rf; rewrite E in *; [destruct Hr|]. destruct Hr as [->|[]]. auto. }
  split; cbn [jd_heap jd_refs jd_props].
  - intros r q Hq. destruct OWN as [E|[r' E]]; rewrite E in *.
    + destruct (st_refs _ _ _ HS r q Hq) as (A & i & B & C). split; [apply in_or_app; now left|]. exists i. split; [now apply hget_old|exact C].
    + rewrite mfind_mset in Hq. destruct (beqb_spec r' r) as [->|].
      * apply Some_eq in Hq. subst q. split; [apply in_or_app; right; now left|]. eexists. split; [apply hget_new|]. cbn [i_ref]. apply (NEW r). now left.
      * destruct (st_refs _ _ _ HS r q Hq) as (A & i & B & C). split; [apply in_or_app; now left|]. exists i. split; [now apply hget_old|exact C].
  - intros r Hr. apply in_app_or in Hr. destruct OWN as [E|[r' E]]; rewrite E in *.
    + destruct Hr as [Hr|[]]. now apply (st_used _ _ _ HS).
    + rewrite mfind_mset. destruct (beqb_spec r' r) as [->|]; [eauto|]. destruct Hr as [Hr|[Hr|[]]]; [now apply (st_used _ _ _ HS)|contradiction].
  - intros p i Hi. apply hget_last in Hi as [[-> ->]|Hi]; cbn [i_ref].
    + unfold rf. destruct OWN as [E|[r' E]]; rewrite E; [now left|]. right. now rewrite mfind_mset, bytes_eqb_refl.
    + destruct (st_heap _ _ _ HS p i Hi) as [A|A]; [now left|right]. destruct OWN as [E|[r' E]]; rewrite E in *; [exact A|].
      rewrite mfind_mset. destruct (beqb_spec r' (i_ref i)) as [->|]; [|exact A]. rewrite (FR (i_ref i)) in A by now left. discriminate A.
  - intros w p Hw. destruct (st_done _ _ _ HS w p Hw) as (m & i & A1 & A2 & A3). exists m, i. split; [exact A1|]. split; [now apply hget_old|exact A3].
  - intros e He. specialize (st_props _ _ _ HS e He). rewrite LEN. lia.
Qed.
Lemma nodup_l {A} (a b : list A) : NoDup (a ++ b) -> NoDup a.
Proof. induction a as [|x a IH]; intros H; [constructor|]. inversion H; subst. constructor; [intros G; apply H2, in_or_app; now left|auto]. Qed.
Lemma state_kids used done p : forall l s r s', state used done s -> NoDup (used ++ flat_map own_refs l) -> kids other ord p l s = OK (r, s') ->
  r = Some p /\ state (used ++ flat_map own_refs l) done s'.
Proof.
  revert used. intros used l. revert used. induction l as [|c l IH]; intros used s r s' HS Hn E; cbn [kids flat_map] in *.
  { injection E as <- <-. rewrite app_nil_r. auto. }
  rewrite app_assoc in *. rewrite inst_step in E.
  assert (Hn1 : NoDup (used ++ own_refs c)) by (eapply nodup_l; exact Hn).
  destruct (state_inst_for used done s c HS Hn1) as [_ HS1]. destruct (inst_for c s) as [q s1]. cbn [snd] in HS1.
  destruct (match index_obj c "class_name" with Some (JStr _) => true | _ => false end) eqn:C.
  - exfalso. destruct (index_obj c "class_name") as [[]|]; try discriminate C. apply bnd in E as ([r1 s2] & E1 & E). apply bnd in E1 as (s3 & E3 & E1). cbv zeta in E1.
    assert (G : exists x, r1 = Some x).
    { destruct (index_obj c "children") as [[| | | |kl| |]|]; try (injection E1 as <- <-; eauto; fail).
      revert E1. generalize (update s3 q no_kids). clear. induction kl as [|c l IH]; intros s E; cbn [kids] in E; [injection E as <- <-; eauto|].
      apply bnd in E as ([[x|] s1] & E1 & E); [discriminate E|eauto]. }
    destruct G as [x ->]. discriminate E.
  - assert (E' : kids other ord p l s1 = OK (r, s')) by (destruct (index_obj c "class_name") as [[]|]; try discriminate C; exact E).
    exact (IH (used ++ own_refs c) s1 r s' HS1 Hn E').
Qed.

Lemma has_class_eq v : has_class v = match index_obj v "class_name" with Some (JStr _) => true | _ => false end.
Proof. destruct v; reflexivity. Qed.
Lemma children_eq v : match index_obj v "children" with Some (JArr l) => l | _ => [] end = child_entries v.
Proof. destruct v; reflexivity. Qed.
Lemma filter_none (p : ptr) (l : list propref) : (forall e, In e l -> pr_inst e <> p) -> filter (fun e => pr_inst e =? p) l = [].
Proof. induction l as [|e l IH]; intros H; [reflexivity|]. cbn [filter]. rewrite (proj2 (Nat.eqb_neq _ _) (H e (or_introl eq_refl))). apply IH. intros x Hx. apply H. now right. Qed.
Lemma filter_all (p : ptr) (l : list propref) : (forall e, In e l -> pr_inst e = p) -> filter (fun e => pr_inst e =? p) l = l.
Proof. induction l as [|e l IH]; intros H; [reflexivity|]. cbn [filter]. rewrite (proj2 (Nat.eqb_eq _ _) (H e (or_introl eq_refl))). f_equal. apply IH. intros x Hx. apply H. now right. Qed.
Lemma state_step used done s v r s' : state used done s ->
  NoDup (used ++ own_refs v ++ if has_class v then flat_map own_refs (child_entries v) else []) ->
  NoDup (map fst (props_of v)) -> InstanceFromJSON other ord v s = OK (r, s') ->
  if has_class v then
    r = Some (S (length (jd_heap s))) /\
    state (used ++ own_refs v ++ flat_map own_refs (child_entries v)) (done ++ [(v, S (length (jd_heap s)))]) s'
  else r = None /\ state (used ++ own_refs v) done s'.
Proof.
  intros HS Hn Hp E. rewrite app_assoc in Hn. pose proof (nodup_l _ _ Hn) as Hn1. destruct (state_inst_for used done s v HS Hn1) as [FR HS1].
  rewrite inst_step in E. rewrite inst_for_eq in E, HS1 by exact FR. cbn [snd] in HS1. rewrite has_class_eq in *.
  destruct (match index_obj v "class_name" with Some (JStr _) => true | _ => false end) eqn:C.
  2:{ assert (E' : r = None /\ s' = Jdst (jd_heap s ++ [Inst [] (rf v) false [] []])
        (match own_refs v with r :: _ => mset (jd_refs s) r (S (length (jd_heap s))) | [] => jd_refs s end) (jd_props s)).
      { destruct (index_obj v "class_name") as [[]|]; try discriminate C; injection E as <- <-; auto. }
      destruct E' as [-> ->]. auto. }
  set (p := S (length (jd_heap s))) in *. set (s1 := Jdst (jd_heap s ++ _) _ (jd_props s)) in *.
  destruct (index_obj v "class_name") as [[| | |class| | |]|] eqn:Ec; try discriminate C. clear C.
  apply bnd in E as (s2 & E2 & E). cbv zeta in E.
  assert (G1 : hget (jd_heap s1) p = Some (Inst [] (rf v) false [] [])) by (unfold s1, p; cbn [jd_heap]; apply hget_new).
  unfold update at 1 in E2. rewrite G1 in E2. cbn [i_ref i_service i_props i_children] in E2. cbv beta in E2.
  set (i1 := Inst class (rf v) (service_of v false) [] []) in *.
  match type of E2 with props_from_json _ _ _ ?x = _ => set (s1' := x) in * end.
  assert (G1' : hget (jd_heap s1') p = Some i1) by (unfold s1'; cbn [jd_heap]; rewrite hget_hset, Nat.eqb_refl, G1; reflexivity).
  assert (Hp' : NoDup (map fst (ord (props_of v)))) by (eapply Permutation_NoDup; [apply Permutation_map, Hord|exact Hp]).
  destruct (props_gen p (ord (props_of v)) Hp' s1' i1 s2 G1' E2) as (i2 & new & A1 & A2 & A3 & A4 & A5 & A6 & A7 & A8 & A9 & A10 & A11).
  assert (A11' : forall name, outcome_of p (option_map (effect_of other) (mfind (props_of v) name)) None (mfind (i_props i2) name) new name).
  { intros name. specialize (A11 name). replace (mfind (ord (props_of v)) name) with (mfind (props_of v) name) in A11; [exact A11|].
    apply mfind_perm; [exact Hp|apply Hord]. }
  set (s3 := update s2 p no_kids) in *.
  assert (H3 : jd_heap s3 = hset (jd_heap s2) p (no_kids i2) /\ jd_refs s3 = jd_refs s1 /\ jd_props s3 = jd_props s ++ new).
  { unfold s3, update. rewrite A5. cbn [jd_heap jd_refs jd_props]. split; [reflexivity|]. split; [exact A1|exact A2]. }
  destruct H3 as (H3a & H3b & H3c).
  assert (G3 : hget (jd_heap s3) p = Some (no_kids i2)) by (rewrite H3a, hget_hset, Nat.eqb_refl, A5; reflexivity).
  assert (O3 : forall q, q <> p -> hget (jd_heap s3) q = hget (jd_heap s1) q).
  { intros q Hq. rewrite H3a, hget_hset. rewrite (proj2 (Nat.eqb_neq _ _) Hq), A4 by exact Hq. unfold s1'. cbn [jd_heap]. rewrite hget_hset, (proj2 (Nat.eqb_neq _ _) Hq). reflexivity. }
  assert (L3 : length (jd_heap s3) = p) by (rewrite H3a, hset_length, A3; unfold s1'; cbn [jd_heap]; rewrite hset_length; unfold s1, p; cbn [jd_heap]; rewrite app_length; cbn; lia).
  assert (R3 : i_ref (no_kids i2) = rf v) by (cbn [no_kids i_ref]; exact A7).
  assert (OLD : forall w q, In (w, q) done -> q < p).
  { intros w q Hw. destruct (st_done _ _ _ HS w q Hw) as (m & i & _ & Hq & _). apply hget_some in Hq. unfold p. lia. }
  assert (HS3 : state (used ++ own_refs v) (done ++ [(v, p)]) s3).
  { split; rewrite ?H3b, ?H3c.
    - intros r0 q Hq. destruct (st_refs _ _ _ HS1 r0 q Hq) as (B1 & i & B2 & B3). split; [exact B1|].
      destruct (Nat.eq_dec q p) as [->|Hne]; [|exists i; split; [rewrite O3 by exact Hne; exact B2|exact B3]].
      exists (no_kids i2). split; [exact G3|]. rewrite R3. rewrite G1 in B2. apply Some_eq in B2. subst i. exact B3.
    - exact (st_used _ _ _ HS1).
    - intros q i Hq. destruct (Nat.eq_dec q p) as [->|Hne].
      + rewrite G3 in Hq. apply Some_eq in Hq. subst i. rewrite R3. exact (st_heap _ _ _ HS1 p _ G1).
      + rewrite O3 in Hq by exact Hne. exact (st_heap _ _ _ HS1 q i Hq).
    - intros w q Hw. apply in_app_or in Hw as [Hw|[Hw|[]]].
      + pose proof (OLD w q Hw). destruct (st_done _ _ _ HS1 w q Hw) as (m & i & B1 & B2 & B3 & B4 & B5 & B6 & B7). exists m, i. split; [exact B1|].
        split; [rewrite O3 by lia; exact B2|]. repeat (split; [assumption|]). rewrite H3c, filter_app, (filter_none q new), app_nil_r; [exact B7|].
        intros e He. rewrite (A10 e He). lia.
      + injection Hw as <- <-. destruct v as [| | | | |m|]; try discriminate Ec. exists m, (no_kids i2). split; [reflexivity|]. split; [exact G3|].
        split; [cbn [no_kids i_class]; unfold has; rewrite A6; exact Ec|]. split.
        { rewrite R3. unfold rf. destruct (own_refs (JObj m)) as [|r0 l0] eqn:Eo; [reflexivity|].
          assert (r0 <> []) by (apply (own_not_nil (JObj m)); rewrite Eo; now left).
          assert (l0 = []) as ->. { unfold own_refs in Eo. destruct (mfind m (str "reference")) as [[]|]; try discriminate Eo. destruct (IsEmptyReference s0); [discriminate Eo|]. congruence. }
          destruct r0; [contradiction|reflexivity]. }
        split.
        { cbn [no_kids i_service]. rewrite A8. unfold i1, service_of, has. cbn [i_service index_obj].
          destruct (mfind m (str "is_service")) as [[| [] | | | | |]|]; split; intros Q; try discriminate Q; try reflexivity; congruence. }
        split; [reflexivity|]. rewrite H3c, filter_app, (filter_none p (jd_props s)), (filter_all p new); [exact A11'|exact A10|].
        intros e He. specialize (st_props _ _ _ HS e He). unfold p. lia.
    - intros e He. rewrite L3. apply in_app_or in He as [He|He]; [specialize (st_props _ _ _ HS e He); unfold p; lia|rewrite (A10 e He); apply le_n]. }
  rewrite <- children_eq in *. rewrite app_assoc.
  destruct (index_obj v "children") as [[| | | |kl| |]|]; try (injection E as <- <-; cbn [flat_map]; rewrite app_nil_r; auto).
  exact (state_kids _ _ p kl s3 r s' HS3 Hn E).
Qed.

Lemma state_list l : forall used done s ps s', state used done s -> NoDup (used ++ doc_refs l) -> NoDup (map snd done) ->
  Forall (fun v => NoDup (map fst (props_of v))) l -> insts_from_json other ord l s = OK (ps, s') ->
  length ps = length (filter has_class l) /\ NoDup (map snd done ++ ps) /\
  state (used ++ doc_refs l) (done ++ combine (filter has_class l) ps) s'.
Proof.
  induction l as [|v l IH]; intros used done s ps s' HS Hn Hd Hp E; cbn [insts_from_json] in E.
  { injection E as <- <-. cbn [doc_refs flat_map filter combine length]. rewrite !app_nil_r. auto. }
  apply bnd in E as ([r s1] & E1 & E). apply bnd in E as ([ps1 s2] & E2 & E). injection E as <- <-.
  apply Forall_cons_iff in Hp as [Hp1 Hp]. unfold doc_refs in *. cbn [flat_map] in *.
  set (mine := own_refs v ++ (if has_class v then flat_map own_refs (child_entries v) else [])) in *. rewrite app_assoc in Hn.
  pose proof (state_step used done s v r s1 HS (nodup_l _ _ Hn) Hp1 E1) as ST. cbn [filter]. unfold mine in *. destruct (has_class v).
  - destruct ST as [-> HS1]. set (p := S (length (jd_heap s))) in *.
    assert (Hd1 : NoDup (map snd (done ++ [(v, p)]))).
    { rewrite map_app. cbn [map snd]. apply NoDup_Add with (a := p) (l := map snd done); [|split; [exact Hd|]].
      - rewrite <- (app_nil_r (map snd done)) at 1. apply Add_app.
      - intros Hin. apply in_map_iff in Hin as ([w q] & Eq & Hin). cbn [snd] in Eq. subst q. destruct (st_done _ _ _ HS w p Hin) as (m & i & _ & G & _).
        apply hget_some in G. unfold p in G. lia. }
    destruct (IH _ _ _ _ _ HS1 Hn Hd1 Hp E2) as (A & B & C). split; [cbn [length]; now rewrite A|]. split.
    + rewrite map_app, <- app_assoc in B. exact B.
    + cbn [combine]. rewrite <- app_assoc in C. cbn [app] in C. rewrite <- !app_assoc in C. rewrite <- !app_assoc. exact C.
  - destruct ST as [-> HS1]. rewrite app_nil_r in *.
    destruct (IH _ _ _ _ _ HS1 Hn Hd Hp E2) as (A & B & C). split; [exact A|]. split; [exact B|]. rewrite <- app_assoc in C. exact C.
Qed.
Lemma state_start : state [] [] (Jdst [] [] []).
Proof. split; cbn; try contradiction; try discriminate. intros p i H. destruct p as [|p]; [discriminate H|]. destruct p; discriminate H. Qed.

(** What an effect says *)
Lemma effect_read h refs jp e now : effect_of other jp = e ->
  match e with
  | Sets w => now = Some w
  | Refers r => exists q, now = Some (RReference q) /\ resolves h refs r q
  | Nothing => now = None
  | Breaks => False
  end -> property_read h refs (Some jp) now.
Proof.
  intros E H. unfold effect_of in E.
  assert (IGN : forall j, (forall pm tn x, j = JObj pm -> has pm "type" (JStr tn) -> has pm "value" x -> False) -> property_read h refs (Some j) None).
  { intros j Hj. apply pr_ignored. intros pm tn x A B C. destruct (Hj pm tn x A B C). }
  destruct jp as [| | | | |pm|]; cbn [index_obj] in E; try (subst e; subst now; apply IGN; discriminate).
  destruct (mfind pm (str "type")) as [[| | |tn| | |]|] eqn:Et; try (subst e; subst now; apply IGN; intros pm' tn' x A B C; injection A as <-; unfold has in B; congruence).
  destruct (mfind pm (str "value")) as [x|] eqn:Ex; [|subst e; subst now; apply IGN; intros pm' tn' x' A B C; injection A as <-; unfold has in C; congruence].
  destruct (value_spec other x (type_of_name tn)) as [_ S2].
  destruct (ValueFromJSON other x (type_of_name tn)) as [[v|]| | |] eqn:Ev; try (subst e; contradiction).
  - destruct (N.eqb_spec (type_of_name tn) TypeReference) as [Er|Er].
    + rewrite Er in Ev. apply C80_values in Ev. inversion Ev; subst. destruct H as (q & -> & Hq). eapply pr_reference; eauto.
    + subst e. subst now. eapply pr_value; eauto. now apply (C80_values other).
  - subst e. subst now. apply pr_ignored. intros pm' tn' x' A B C. injection A as <-. unfold has in B, C. rewrite Et in B. rewrite Ex in C.
    injection B as <-. injection C as <-. apply (S2 None eq_refl). reflexivity.
Qed.
End Doc.
