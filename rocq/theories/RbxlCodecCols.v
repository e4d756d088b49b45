(** RbxlCodecCols.v - the property arrays Encode produces. *)
From Coq Require Import Permutation Sorting.Sorted.
From Verif Require Import Base RbxlValues RbxlArrays RbxlModel RbxlFile RbxlFileProofs RbxValues Tree RbxlCodec
  SpecValues SpecArrays SpecModel SpecFile SpecTree SpecCodec TreeProofs SortProofs PropCodecValues RbxlCodecEnc.

Lemma tid_eqb_eq t u : tid_eqb t u = true <-> t = u.
Proof. split; [|intros ->; destruct u; reflexivity]. destruct t, u; intros H; try discriminate; reflexivity. Qed.
Lemma tid_eqb_refl t : tid_eqb t t = true.
Proof. now apply tid_eqb_eq. Qed.
Lemma tid_eqb_neq t u : tid_eqb t u = false <-> t <> u.
Proof. rewrite <- tid_eqb_eq. destruct (tid_eqb t u); split; congruence. Qed.
Lemma newValue_some t : t <> tOptional -> exists d, newValue t = Some d /\ vtype d = t.
Proof. intros H. destruct t; try (eexists; split; reflexivity). congruence. Qed.
Lemma newArray_plain t n d : newValue t = Some d -> newArray t n = ARR t (repeat d n).
Proof. intros H. unfold newArray. rewrite H. destruct t; try reflexivity. discriminate. Qed.

(** Every value has a binary type. *)
Definition vt (v : rvalue) : option tid := fromValueType (rtype v).
Lemma vt_some v : exists t, vt v = Some t.
Proof. destruct v; eexists; reflexivity. Qed.
Lemma vt_optional v : vt v = Some tOptional <-> exists ty o, v = ROptional ty o.
Proof. split; [|intros (ty & o & ->); reflexivity]. destruct v; intros H; try discriminate. eauto. Qed.
Lemma vt_reference v : vt v = Some tReference <-> exists p, v = RReference p.
Proof. split; [|intros (p & ->); reflexivity]. destruct v; intros H; try discriminate. eauto. Qed.
Lemma vt_shared v : vt v = Some tSharedString <-> exists s, v = RSharedString s.
Proof. split; [|intros (p & ->); reflexivity]. destruct v; intros H; try discriminate. eauto. Qed.

(** ** Columns: the values of one property of one class *)
Inductive ctype := CPlain (t : tid) | COpt (u : tid).
Definition is_col (ct : ctype) (v : rvalue) : Prop :=
  match ct with
  | CPlain t => vt v = Some t /\ t <> tOptional
  | COpt u => exists ty o, v = ROptional ty o /\ fromValueType ty = Some u /\ u <> tOptional
  end.
Definition init (ct : ctype) (n : nat) : array :=
  match ct with
  | CPlain t => newArray t n
  | COpt u => AOPT (Some (newArray u n)) (repeat false n)
  end.
(** Optional values agree on a type that is a type. *)
Definition opts_agree (vs : list rvalue) : Prop :=
  exists u, u <> tOptional /\ forall ty o, In (ROptional ty o) vs -> fromValueType ty = Some u.
(** The first type, and the first other type. *)
Inductive mixed (t u : tid) : list rvalue -> Prop :=
| mixed_here v vs w vs' : vt v = Some t -> Forall (fun x => vt x = Some t) vs -> vt w = Some u -> u <> t ->
    mixed t u (v :: vs ++ w :: vs').

Lemma check_rest_spec t o class name vs :
  (t = tOptional -> exists u, o = Some u /\ forall ty x, In (ROptional ty x) vs -> fromValueType ty = Some u) ->
  (check_rest t o class name vs = None /\ Forall (fun v => vt v = Some t) vs) \/
  (exists u a w b, vs = a ++ w :: b /\ Forall (fun v => vt v = Some t) a /\ vt w = Some u /\ u <> t /\
     check_rest t o class name vs = Some (CMismatch (Some u) (Some t) class name, true)).
Proof.
  intros Ho. induction vs as [|v vs IH]; [left; split; [reflexivity|constructor]|]. cbn [check_rest].
  destruct (vt_some v) as [u Hu]. change (fromValueType (rtype v)) with (vt v). rewrite Hu.
  destruct (tid_eqb u t) eqn:E; cbn [negb].
  - apply tid_eqb_eq in E. subst u.
    assert (Hr : (match v with
                  | ROptional ty _ =>
                      if match fromValueType ty, o with
                         | Some u, Some w => negb (tid_eqb u w)
                         | None, None => false
                         | _, _ => true
                         end
                      then Some (COptMismatch (fromValueType ty) o class name, false)
                      else check_rest t o class name vs
                  | _ => check_rest t o class name vs
                  end) = check_rest t o class name vs).
    { destruct v; try reflexivity. assert (t = tOptional) as -> by (cbn in Hu; congruence).
      destruct (Ho eq_refl) as (u & -> & Hf). rewrite (Hf typ v) by now left. now rewrite tid_eqb_refl. }
    rewrite Hr. destruct IH as [[-> Hf]|(w & a & x & b & -> & Ha & Hx & Hw & ->)].
    + intros Ht. destruct (Ho Ht) as (u & -> & Hf). exists u. split; [reflexivity|]. intros; eapply Hf; right; eauto.
    + left. split; [reflexivity|]. constructor; assumption.
    + right. exists w, (v :: a), x, b. repeat split; auto.
  - apply tid_eqb_neq in E. right. exists u, [], v, vs. repeat split; auto.
Qed.

Lemma check_prop_spec place class name n vs : vs <> [] -> opts_agree vs ->
  (exists ct, check_prop place class name n vs = OK ([], Some (Some (init ct n))) /\ Forall (is_col ct) vs /\
     (place = true \/ ct <> CPlain tUniqueId)) \/
  (check_prop place class name n vs = OK ([], None) /\ place = false /\ exists v vs', vs = v :: vs' /\ vt v = Some tUniqueId) \/
  (exists t u, check_prop place class name n vs = OK ([CMismatch (Some u) (Some t) class name], None) /\ mixed t u vs /\
     (place = true \/ t <> tUniqueId)).
Proof.
  intros Hne (uo & Huo & Hop). destruct vs as [|v vs]; [easy|]. clear Hne. cbn [check_prop].
  destruct (vt_some v) as [t Ht]. change (fromValueType (rtype v)) with (vt v). rewrite Ht.
  destruct (negb place && tid_eqb t tUniqueId) eqn:E.
  - right. left. apply andb_prop in E. destruct E as [Ep Eu]. apply tid_eqb_eq in Eu. subst t.
    split; [reflexivity|]. split; [now destruct place|]. eauto.
  - assert (Hp : place = true \/ t <> tUniqueId).
    { destruct place; [now left|]. right. cbn in E. now apply tid_eqb_neq. }
    pose (ct := match v with ROptional _ _ => COpt uo | _ => CPlain t end).
    assert (Hct : t = tOptional /\ ct = COpt uo \/ t <> tOptional /\ ct = CPlain t).
    { unfold ct. destruct v; try (right; split; [cbn in Ht; congruence|reflexivity]). left. split; [cbn in Ht; congruence|reflexivity]. }
    assert (Ho : (match v with
              | ROptional ty _ => match fromValueType ty with Some u => Some (Some u) | None => None end
              | _ => Some None
              end) = Some (match ct with COpt u => Some u | CPlain _ => None end)).
    { unfold ct. destruct v; try reflexivity. rewrite (Hop typ v) by now left. reflexivity. }
    rewrite Ho. set (o := match ct with COpt u => Some u | CPlain _ => None end) in *.
    destruct (check_rest_spec t o class name vs) as [[-> Hf]|(w & a & x & b & -> & Ha & Hx & Hw & ->)].
    + intros ->. exists uo. destruct Hct as [[_ Hc]|[Hc _]]; [|congruence]. unfold o. rewrite Hc.
      split; [reflexivity|]. intros ty x Hin. eapply Hop. right. eauto.
    + left. exists ct. split.
      * destruct Hct as [[_ Hc]|[_ Hc]]; unfold o; rewrite Hc; reflexivity.
      * split.
        -- assert (Hall : Forall (fun v => vt v = Some t) (v :: vs)) by (constructor; assumption).
           rewrite Forall_forall in *. intros y Hy. specialize (Hall y Hy). destruct Hct as [[-> ->]|[Hn ->]]; cbn [is_col]; [|auto].
           apply vt_optional in Hall. destruct Hall as (ty & ov & ->). exists ty, ov. split; [reflexivity|]. split; [|exact Huo]. eapply Hop; eauto.
        -- destruct Hp as [Hp|Hp]; [now left|]. right. destruct Hct as [[_ ->]|[_ ->]]; congruence.
    + right. right. exists t, w. split; [reflexivity|]. split; [|exact Hp]. constructor; auto.
Qed.

(** ** Shared strings *)
Section Shared.
  Variables (ev : env) (S : list bytes).
  Hypothesis Hinj : forall s s', In s S -> In s' S -> ev_hash ev s = ev_hash ev s' -> s = s'.
  Hypothesis Hlen : (N.of_nat (length S) < 2 ^ 32)%N.
  Definition shared_ok (sh : shareds) : Prop :=
    (forall k s, In (k, s) sh -> k = ev_hash ev s /\ In s S) /\ NoDup (map fst sh).
  Lemma shared_nodup sh : shared_ok sh -> NoDup (map snd sh).
  Proof.
    intros [H Hn]. induction sh as [|[k s] sh IH]; cbn in *; constructor.
    - intros Hin. apply in_map_iff in Hin. destruct Hin as ([k' s'] & E & Hin). cbn in E. subst s'.
      inversion Hn as [|? ? Hk _]; subst. apply Hk. apply in_map_iff. exists (k', s). split; [|exact Hin].
      destruct (H k s) as [-> _]; [now left|]. destruct (H k' s) as [-> _]; [now right|]. reflexivity.
    - inversion Hn; subst. apply IH; auto.
  Qed.
  Lemma shared_small sh : shared_ok sh -> length sh <= length S.
  Proof.
    intros H. rewrite <- (map_length snd sh). apply NoDup_incl_length; [now apply shared_nodup|].
    intros s Hin. apply in_map_iff in Hin. destruct Hin as ([k s'] & <- & Hin). now apply H in Hin.
  Qed.
  Lemma shared_index_spec sh hash :
    match shared_index sh hash with
    | Some k => exists s, nth_error sh k = Some (hash, s)
    | None => ~ In hash (map fst sh)
    end.
  Proof.
    induction sh as [|[k s] sh IH]; cbn [shared_index]; [easy|].
    destruct (beqb_spec k hash) as [->|Hk]; [exists s; reflexivity|].
    destruct (shared_index sh hash) as [j|]; cbn; [exact IH|]. intros [H|H]; auto.
  Qed.
  Lemma share_spec s sh : In s S -> shared_ok sh ->
    exists k new, share ev s sh = (N.of_nat k, sh ++ new) /\ shared_ok (sh ++ new) /\
      nth_error (sh ++ new) k = Some (ev_hash ev s, s).
  Proof.
    intros Hs Hok. unfold share. pose proof (shared_index_spec sh (ev_hash ev s)) as H.
    pose proof (shared_small sh Hok) as Hsm.
    destruct (shared_index sh (ev_hash ev s)) as [k|].
    - destruct H as [s' H]. exists k, []. rewrite app_nil_r. split; [|split; [exact Hok|]].
      + f_equal. apply N.mod_small. assert (k < length sh) by (apply nth_error_Some; congruence). lia.
      + rewrite H. f_equal. f_equal. apply nth_error_In in H. destruct (proj1 Hok _ _ H) as [He Hs']. symmetry. now apply Hinj.
    - exists (length sh), [(ev_hash ev s, s)].
      assert (Hok' : shared_ok (sh ++ [(ev_hash ev s, s)])).
      { split.
        - intros k x Hin. apply in_app_or in Hin. destruct Hin as [Hin|[[= <- <-]|[]]]; [now apply (proj1 Hok)|auto].
        - rewrite map_app. cbn. clear Hinj Hlen.
          destruct Hok as [_ Hn]. revert H Hn. generalize (ev_hash ev s) (map fst sh). clear.
          intros a l Ha Hn. induction Hn as [|b l Hb Hn IH]; cbn; [repeat constructor; easy|].
          constructor; [|apply IH; intros Hi; apply Ha; now right].
          intros Hi. apply in_app_or in Hi. destruct Hi as [Hi|[Hi|[]]]; [contradiction|]. apply Ha. now left. }
      split; [|split; [exact Hok'|]].
      + f_equal. apply N.mod_small. pose proof (shared_small _ Hok') as H1. rewrite app_length in H1. cbn in H1. lia.
      + rewrite nth_error_app2 by lia. now rewrite Nat.sub_diag.
  Qed.

  (** ** Array elements *)
  Variable l : list ptr.
  Definition elem (t : tid) (name : bytes) (sh : shareds) (x : inst) (b : value) : Prop :=
    match mfind (i_props x) name with
    | None => newValue t = Some b
    | Some (RReference p) => b = VReference (num l p)
    | Some (RSharedString s) => exists k, b = VSharedString (N.of_nat k) /\ nth_error sh k = Some (ev_hash ev s, s)
    | Some v => encodeValue v = Some b
    end.
  Definition elemo (u : tid) (name : bytes) (x : inst) (e : value * bool) : Prop :=
    match mfind (i_props x) name with
    | Some (ROptional _ (Some v)) =>
        match encodeValue v with
        | Some b => e = (b, true)
        | None => exists d, newValue u = Some d /\ e = (d, false)
        end
    | _ => exists d, newValue u = Some d /\ e = (d, false)
    end.
  Definition col_result (name : bytes) (sh : shareds) (ms : list inst) (ct : ctype) (a : array) : Prop :=
    match ct with
    | CPlain t => exists bs, a = ARR t bs /\ Forall2 (elem t name sh) ms bs
    | COpt u => exists es, a = AOPT (Some (ARR u (map fst es))) (map snd es) /\ Forall2 (elemo u name) ms es
    end.
  Lemma nth_error_app_some {A} (a b : list A) k x : nth_error a k = Some x -> nth_error (a ++ b) k = Some x.
  Proof. intros H. rewrite nth_error_app1; [exact H|]. apply nth_error_Some. congruence. Qed.
  Lemma elem_mono t name sh new x b : elem t name sh x b -> elem t name (sh ++ new) x b.
  Proof.
    unfold elem. destruct (mfind (i_props x) name) as [[]|]; auto. intros (k & -> & H). exists k. split; [reflexivity|].
    now apply nth_error_app_some.
  Qed.
  Lemma col_mono name sh new ms ct a : col_result name sh ms ct a -> col_result name (sh ++ new) ms ct a.
  Proof.
    destruct ct; cbn; [|auto]. intros (bs & -> & H). exists bs. split; [reflexivity|].
    eapply Forall2_impl; [|exact H]. intros. now apply elem_mono.
  Qed.
  Lemma elem_type t name sh x b :
    (forall v, mfind (i_props x) name = Some v -> is_col (CPlain t) v) -> t <> tOptional -> elem t name sh x b -> vtype b = t.
  Proof.
    intros Hv Ht. unfold elem. destruct (mfind (i_props x) name) as [v|] eqn:E.
    - specialize (Hv v eq_refl). destruct Hv as [Hv _].
      destruct v; try (intros H; apply C24_type in H; unfold vt in Hv; congruence).
      + intros ->. cbn in *. congruence.
      + intros (k & -> & _). cbn in *. congruence.
    - intros H. destruct (newValue_some t Ht) as (d & Hd & <-). congruence.
  Qed.
  Lemma upd_mid {A} (a : list A) x y b : upd (a ++ x :: b) (length a) y = a ++ y :: b.
  Proof. induction a as [|z a IH]; cbn; [reflexivity|]. now rewrite IH. Qed.
  Lemma arr_set_mid t a d r b : vtype b = t -> arr_set (ARR t (a ++ d :: r)) (length a) (Some b) = OK (ARR t (a ++ b :: r)).
  Proof.
    intros Hb. cbn [arr_set]. rewrite Hb, tid_eqb_refl. cbn [andb].
    destruct (Nat.ltb_spec (length a) (length (a ++ d :: r))) as [|H]; [|rewrite app_length in H; cbn in H; lia].
    now rewrite upd_mid.
  Qed.
  Definition props_shared_in (x : inst) : Prop := forall name s, mfind (i_props x) name = Some (RSharedString s) -> In s S.
  Lemma enc_value_plain t d name x bs n sh : t <> tOptional -> props_shared_in x ->
    (forall v, mfind (i_props x) name = Some v -> is_col (CPlain t) v) -> shared_ok sh ->
    exists b new, enc_value ev l name (length bs) x (ARR t (bs ++ d :: repeat d n), sh) =
      OK (ARR t (bs ++ b :: repeat d n), sh ++ new) /\ shared_ok (sh ++ new) /\ elem t name (sh ++ new) x b.
  Proof.
    intros Ht Hp Hv Hok. unfold enc_value, elem. specialize (Hp name).
    destruct (mfind (i_props x) name) as [v|] eqn:E.
    - specialize (Hv v eq_refl). destruct Hv as [Hv _]. destruct v;
        try (match goal with |- context [encodeValue ?v] =>
          destruct (encodeValue v) as [bb|] eqn:Eb; [|apply C24_not_convertible in Eb; exfalso; apply Eb; exact I];
          exists bb, []; cbn [arr_type]; pose proof (C24_type _ _ Eb) as Hb; unfold vt in Hv; rewrite Hv in Hb; injection Hb as Hb;
          rewrite <- Hb, tid_eqb_refl, app_nil_r; rewrite arr_set_mid by (symmetry; exact Hb); cbn [obind]; split; [reflexivity|split; [exact Hok|reflexivity]]
        end).
      + assert (t = tReference) as -> by (cbn in Hv; congruence).
        exists (VReference (num l p)), []. cbn [arr_type vtype]. rewrite tid_eqb_refl, app_nil_r.
        rewrite arr_set_mid by reflexivity. cbn [obind]. auto.
      + assert (t = tSharedString) as -> by (cbn in Hv; congruence).
        destruct (share_spec s sh (Hp s eq_refl) Hok) as (k & new & -> & Hok' & Hk).
        exists (VSharedString (N.of_nat k)), new. cbn [arr_type vtype]. rewrite tid_eqb_refl.
        rewrite arr_set_mid by reflexivity. cbn [obind]. split; [reflexivity|]. split; [exact Hok'|]. eauto.
      + cbn in Hv. congruence.
    - destruct (newValue_some t Ht) as (b & Hb & Htb). exists b, []. cbn [arr_type]. rewrite Hb, app_nil_r.
      rewrite arr_set_mid by exact Htb. cbn [obind]. auto.
  Qed.
  Lemma enc_values_plain t d name : t <> tOptional -> forall ms bs sh,
    Forall (fun x => props_shared_in x /\ forall v, mfind (i_props x) name = Some v -> is_col (CPlain t) v) ms -> shared_ok sh ->
    exists bs' new, enc_values ev l name (length bs) ms (ARR t (bs ++ repeat d (length ms)), sh) =
      OK (ARR t (bs ++ bs'), sh ++ new) /\ shared_ok (sh ++ new) /\ Forall2 (elem t name (sh ++ new)) ms bs'.
  Proof.
    intros Ht. induction ms as [|x ms IH]; intros bs sh Hm Hok.
    - exists [], []. cbn. rewrite !app_nil_r. auto.
    - inversion Hm as [|? ? [Hs Hv] Hm']; subst. cbn [enc_values length repeat].
      destruct (enc_value_plain t d name x bs (length ms) sh Ht Hs Hv Hok) as (b & new & -> & Hok' & He). cbn [obind].
      destruct (IH (bs ++ [b]) (sh ++ new) Hm' Hok') as (bs' & new' & E & Hok'' & Hf).
      rewrite app_length, Nat.add_1_r, <- !app_assoc in E. cbn [app] in E.
      exists (b :: bs'), (new ++ new'). rewrite (app_assoc sh) in E |- *. split; [exact E|]. split; [exact Hok''|].
      constructor; [now apply elem_mono|exact Hf].
  Qed.
  Lemma enc_value_opt u d name x es n sh : u <> tOptional -> newValue u = Some d ->
    (forall v, mfind (i_props x) name = Some v -> is_col (COpt u) v) ->
    (forall ty v, mfind (i_props x) name = Some (ROptional ty (Some v)) -> ty = rtype v) ->
    exists e, enc_value ev l name (length es) x
        (AOPT (Some (ARR u (map fst es ++ d :: repeat d n))) (map snd es ++ false :: repeat false n), sh) =
      OK (AOPT (Some (ARR u (map fst es ++ fst e :: repeat d n))) (map snd es ++ snd e :: repeat false n), sh) /\
      elemo u name x e.
  Proof.
    intros Hu Hd Hv Hty. unfold enc_value, elemo.
    assert (Hvd : vtype d = u) by (destruct (newValue_some u Hu) as (d' & Hd' & <-); congruence).
    assert (Hset : forall o, (forall b, o = Some b -> vtype b = u) ->
      arr_set (AOPT (Some (ARR u (map fst es ++ d :: repeat d n))) (map snd es ++ false :: repeat false n)) (length es) o
      = OK (AOPT (Some (ARR u (map fst es ++ match o with Some b => b | None => d end :: repeat d n)))
                 (map snd es ++ match o with Some _ => true | None => false end :: repeat false n))).
    { intros o Hb. remember (ARR u (map fst es ++ d :: repeat d n)) as A eqn:EA. cbn [arr_set].
      assert (E : arr_set A (length es) (match o with Some v => Some v | None => newValue (arr_type A) end)
                  = OK (ARR u (map fst es ++ match o with Some b => b | None => d end :: repeat d n))).
      { subst A. cbn [arr_type]. rewrite Hd. rewrite <- (map_length fst es) at 1. destruct o as [b|]; apply arr_set_mid; auto. }
      rewrite E. cbn [obind].
      destruct (Nat.ltb_spec (length es) (length (map snd es ++ false :: repeat false n))) as [|H].
      - rewrite <- (map_length snd es) at 1. now rewrite upd_mid.
      - rewrite app_length, map_length in H. cbn in H. lia. }
    destruct (mfind (i_props x) name) as [v|] eqn:E.
    - destruct (Hv v eq_refl) as (ty & o & -> & Hty1 & _).
      destruct o as [v|].
      + destruct (encodeValue v) as [b|] eqn:Eb.
        * exists (b, true). rewrite Hset; [auto|]. intros b' [= <-]. rewrite (Hty ty v eq_refl) in Hty1. pose proof (C24_type _ _ Eb). congruence.
        * exists (d, false). rewrite Hset by discriminate. eauto.
      + exists (d, false). rewrite Hset by discriminate. eauto.
    - exists (d, false). cbn [arr_type newValue]. rewrite Hset by discriminate. eauto.
  Qed.
  Lemma enc_values_opt u d name : u <> tOptional -> newValue u = Some d -> forall ms es sh,
    Forall (fun x => (forall v, mfind (i_props x) name = Some v -> is_col (COpt u) v) /\
                     (forall ty v, mfind (i_props x) name = Some (ROptional ty (Some v)) -> ty = rtype v)) ms ->
    exists es', enc_values ev l name (length es) ms
        (AOPT (Some (ARR u (map fst es ++ repeat d (length ms)))) (map snd es ++ repeat false (length ms)), sh) =
      OK (AOPT (Some (ARR u (map fst es ++ map fst es'))) (map snd es ++ map snd es'), sh) /\
      Forall2 (elemo u name) ms es'.
  Proof.
    intros Hu Hd. induction ms as [|x ms IH]; intros es sh Hm.
    - exists []. cbn. auto.
    - inversion Hm as [|? ? [Hv Hty] Hm']; subst. cbn [enc_values length repeat].
      destruct (enc_value_opt u d name x es (length ms) sh Hu Hd Hv Hty) as (e & -> & He). cbn [obind].
      destruct (IH (es ++ [e]) sh Hm') as (es' & E & Hf).
      rewrite app_length, Nat.add_1_r, !map_app, <- !app_assoc in E. cbn [app map] in E.
      exists (e :: es'). rewrite E. cbn [map]. auto.
  Qed.
  Definition inst_ok (x : inst) : Prop :=
    props_shared_in x /\ forall name ty v, mfind (i_props x) name = Some (ROptional ty (Some v)) -> ty = rtype v.
  Lemma enc_values_spec ct name ms sh : Forall inst_ok ms -> prop_values ms name <> [] ->
    Forall (is_col ct) (prop_values ms name) -> shared_ok sh ->
    exists a new, enc_values ev l name 0 ms (init ct (length ms), sh) = OK (a, sh ++ new) /\
      shared_ok (sh ++ new) /\ col_result name (sh ++ new) ms ct a.
  Proof.
    intros Hi Hne Hc Hok.
    assert (Hv : forall x, In x ms -> forall v, mfind (i_props x) name = Some v -> is_col ct v).
    { intros x Hin v Hf. rewrite Forall_forall in Hc. apply Hc. unfold prop_values. apply in_flat_map.
      exists x. rewrite Hf. split; [exact Hin|now left]. }
    destruct (prop_values ms name) as [|v0 vs] eqn:E0; [easy|]. apply Forall_inv in Hc. rewrite Forall_forall in Hi.
    destruct ct as [t|u].
    - destruct Hc as [_ Ht]. destruct (newValue_some t Ht) as (d & Hd & _).
      destruct (enc_values_plain t d name Ht ms [] sh) as (bs & new & E & Hok' & Hf); [|exact Hok|].
      + apply Forall_forall. intros x Hin. split; [now apply Hi|now apply Hv].
      + exists (ARR t bs), new. cbn [init]. rewrite (newArray_plain t _ d Hd). cbn [length app] in E. rewrite E.
        split; [reflexivity|]. split; [exact Hok'|]. cbn. eauto.
    - destruct Hc as (ty & o & _ & _ & Hu). destruct (newValue_some u Hu) as (d & Hd & _).
      destruct (enc_values_opt u d name Hu Hd ms [] sh) as (es & E & Hf).
      + apply Forall_forall. intros x Hin. split; [now apply Hv|]. intros; eapply Hi; eauto.
      + exists (AOPT (Some (ARR u (map fst es))) (map snd es)), []. cbn [init]. rewrite (newArray_plain u _ d Hd).
        cbn [length app map] in E. rewrite E, app_nil_r. split; [reflexivity|]. split; [exact Hok|]. cbn. eauto.
  Qed.
End Shared.
