(** RbxlCodecDec.v - Decode of the codec, chunk by chunk. *)
From Coq Require Import Permutation Sorting.Sorted.
From Verif Require Import Base RbxlValues RbxlArrays RbxlModel RbxlFile RbxlFileProofs RbxValues Tree RbxlCodec
  SpecValues SpecArrays SpecModel SpecFile SpecTree SpecCodec TreeProofs SortProofs RbxlCodecEnc RbxlCodecCols.

Lemma dec_list_app q2m f : forall a ic b s, (forall c content, In c a -> ch_payload c <> PEnd content) ->
  dec_chunk_list q2m f ic (a ++ b) s =
  (s' <- dec_chunk_list q2m f ic a s ;; dec_chunk_list q2m f (ic + length a) b s').
Proof.
  induction a as [|c a IH]; intros ic b s H; cbn [app dec_chunk_list length].
  - cbn [obind]. now rewrite Nat.add_0_r.
  - assert (Hc : forall content, ch_payload c <> PEnd content) by (intros; apply H; now left).
    assert (Ha : forall c content, In c a -> ch_payload c <> PEnd content) by (intros; apply H; now right).
    destruct (ch_payload c) eqn:E; try (exfalso; eapply Hc; reflexivity);
      (destruct (dec_chunk _ _ _ _ s); cbn [obind]; [rewrite IH by exact Ha; now rewrite Nat.add_succ_r|reflexivity|reflexivity|reflexivity]).
Qed.
Lemma dec_list_one q2m f ic c s : (forall content, ch_payload c <> PEnd content) ->
  dec_chunk_list q2m f ic [c] s = dec_chunk q2m f ic (ch_payload c) s.
Proof.
  intros H. cbn [dec_chunk_list]. destruct (ch_payload c) eqn:E; try (exfalso; eapply H; reflexivity);
    (destruct (dec_chunk _ _ _ _ s); reflexivity).
Qed.

(** ** INST *)
Definition lookup_ok (lk : look) (zs : list Z) : Prop :=
  lfind lk nilInstance = Some 0 /\
  (forall k z, nth_error zs k = Some z -> lfind lk z = Some (S k)) /\
  (forall z, z <> nilInstance -> ~ In z zs -> lfind lk z = None).
Fixpoint mk_insts (class : bytes) (svc : bool) (gs : bytes) (ids : list Z) : list inst :=
  match ids with
  | [] => []
  | _ :: ids => Inst class [] (svc && Byte.eqb (hd x00 gs) x01) [] [] :: mk_insts class svc (tl gs) ids
  end.
Lemma dec_insts_spec bound class svc : forall ids gs h lk zs,
  lookup_ok lk zs -> length h = length zs -> NoDup (zs ++ ids) ->
  Forall (fun z => out_of_bounds z bound = false) ids ->
  exists lk', dec_insts bound class svc gs ids h lk = OK (h ++ mk_insts class svc gs ids, lk') /\ lookup_ok lk' (zs ++ ids).
Proof.
  induction ids as [|z ids IH]; intros gs h lk zs Hl Hh Hn Hb; cbn [dec_insts mk_insts].
  - exists lk. now rewrite !app_nil_r.
  - inversion Hb as [|? ? Hz Hb']; subst. rewrite Hz.
    assert (Hzn : ~ In z zs) by (intros H; apply NoDup_remove_2 in Hn; apply Hn; apply in_or_app; now left).
    assert (Hz1 : z <> nilInstance).
    { unfold out_of_bounds in Hz. apply orb_false_elim in Hz. destruct Hz as [Hz _]. apply Z.ltb_ge in Hz. unfold nilInstance. lia. }
    destruct Hl as (L0 & L1 & L2). rewrite (L2 z Hz1 Hzn).
    replace (zs ++ z :: ids) with ((zs ++ [z]) ++ ids) in * by now rewrite <- app_assoc.
    destruct (IH (tl gs) (h ++ [Inst class [] (svc && Byte.eqb (hd x00 gs) x01) [] []]) ((z, S (length h)) :: lk) (zs ++ [z]))
      as (lk' & E & Hl'); auto.
    + split; [|split].
      * cbn [lfind]. destruct (Z.eqb_spec z nilInstance); [contradiction|exact L0].
      * intros k y Hk. cbn [lfind]. destruct (Nat.lt_ge_cases k (length zs)) as [Hlt|Hge].
        -- rewrite nth_error_app1 in Hk by exact Hlt. destruct (Z.eqb_spec z y) as [->|]; [exfalso; apply Hzn; eapply nth_error_In; eauto|auto].
        -- rewrite nth_error_app2 in Hk by exact Hge. destruct (k - length zs) as [|m] eqn:Em; [|destruct m; discriminate].
           cbn in Hk. injection Hk as ->. rewrite Z.eqb_refl. do 2 f_equal. lia.
      * intros y Hy Hin. cbn [lfind]. destruct (Z.eqb_spec z y) as [->|]; [exfalso; apply Hin; apply in_or_app; right; now left|].
        apply L2; [exact Hy|]. intros H. apply Hin. apply in_or_app. now left.
    + rewrite !app_length. cbn. lia.
    + exists lk'. rewrite E, <- app_assoc. auto.
Qed.
Lemma lookup_ok_nil : lookup_ok [(nilInstance, 0)] [].
Proof.
  split; [reflexivity|]. split; [intros [|k] z H; discriminate|]. intros z Hz _. cbn [lfind].
  destruct (Z.eqb_spec nilInstance z); [congruence|reflexivity].
Qed.
Lemma lget_nth lk zs k z : lookup_ok lk zs -> nth_error zs k = Some z -> lget lk z = S k.
Proof. intros (_ & L & _) H. unfold lget. now rewrite (L _ _ H). Qed.

(** ** PROP *)
Lemma dec_props_spec q2m lk shared name a : forall ids vs i h,
  length vs = length ids ->
  (forall j v, nth_error vs j = Some v -> dec_value q2m lk shared a (i + j) = OK v) ->
  NoDup (map (lget lk) ids) -> (forall z, In z ids -> exists x, hget h (lget lk z) = Some x) ->
  exists h', dec_props q2m lk shared name a i ids h = OK h' /\ length h' = length h /\
    forall q x, hget h q = Some x ->
      (forall j z v, nth_error ids j = Some z -> nth_error vs j = Some v -> lget lk z = q ->
         hget h' q = Some (set_props x (mset (i_props x) name v))) /\
      ((forall z, In z ids -> lget lk z <> q) -> hget h' q = Some x).
Proof.
  induction ids as [|z ids IH]; intros vs i h Hl Hv Hn Hg; cbn [dec_props].
  - exists h. split; [reflexivity|]. split; [reflexivity|]. intros q x Hq. split; [|auto]. intros [|j] y v Hj; discriminate.
  - destruct vs as [|v vs]; [discriminate|]. injection Hl as Hl.
    pose proof (Hv 0 v eq_refl) as Hv0. rewrite Nat.add_0_r in Hv0. rewrite Hv0. cbn [obind].
    destruct (Hg z) as [x0 Hx0]; [now left|]. rewrite Hx0. inversion Hn as [|? ? Hz Hn']; subst.
    destruct (IH vs (S i) (hset h (lget lk z) (set_props x0 (mset (i_props x0) name v)))) as (h' & E & Hlen & Hs); auto.
    + intros j w Hj. rewrite Nat.add_succ_comm. now apply Hv.
    + intros y Hy. rewrite hget_hset. destruct (Hg y) as [x Hx]; [now right|]. destruct (lget lk y =? lget lk z)%nat eqn:Ez; [|eauto].
      rewrite Hx0. cbn. eauto.
    + exists h'. split; [exact E|]. split; [now rewrite Hlen, hset_length|].
      intros q x Hq. specialize (Hs q). rewrite hget_hset in Hs. split.
      * intros [|j] y w Hj Hw Hy; cbn in Hj, Hw.
        -- injection Hj as <-. injection Hw as <-. subst q. rewrite Nat.eqb_refl in Hs.
           assert (x0 = x) as -> by congruence. rewrite Hq in Hs. destruct (Hs _ eq_refl) as [_ Hs2]. apply Hs2.
           intros y Hy Hyz. apply Hz. rewrite <- Hyz. now apply in_map.
        -- assert (Hqz : lget lk z <> q).
           { intros Hqz. apply Hz. rewrite Hqz, <- Hy. apply in_map. eapply nth_error_In; eauto. }
           destruct (Nat.eqb_spec q (lget lk z)) as [Ee|]; [congruence|]. destruct (Hs x Hq) as [Hs1 _]. eapply Hs1; eauto.
      * intros Hno. destruct (Nat.eqb_spec q (lget lk z)) as [Ee|]; [exfalso; apply (Hno z); [now left|congruence]|].
        destruct (Hs x Hq) as [_ Hs2]. apply Hs2. intros y Hy. apply Hno. now right.
Qed.

(** ** PRNT *)
Definition links_to (lk : look) (q : ptr) (l : list (Z * Z)) : list ptr :=
  map (fun cp => lget lk (fst cp)) (filter (fun cp => negb (snd cp =? nilInstance)%Z && (lget lk (snd cp) =? q)%nat) l).
Definition links_root (lk : look) (l : list (Z * Z)) : list ptr :=
  map (fun cp => lget lk (fst cp)) (filter (fun cp => (snd cp =? nilInstance)%Z) l).
Lemma set_children_eq x : set_children x (i_children x ++ []) = x.
Proof. rewrite app_nil_r. now destruct x. Qed.
Lemma dec_links_spec ic bound lk : forall l i h rt ws,
  Forall (fun cp => out_of_bounds (fst cp) bound = false /\ lget lk (fst cp) <> 0 /\
    (snd cp = nilInstance \/ exists pp x, lfind lk (snd cp) = Some pp /\ hget h pp = Some x)) l ->
  exists h', dec_links ic bound lk i l h rt ws = OK (h', rt ++ links_root lk l, ws) /\ length h' = length h /\
    forall q x, hget h q = Some x -> hget h' q = Some (set_children x (i_children x ++ links_to lk q l)).
Proof.
  induction l as [|[c p] l IH]; intros i h rt ws H; cbn [dec_links].
  - exists h. unfold links_root, links_to. cbn. rewrite app_nil_r. split; [reflexivity|]. split; [reflexivity|].
    intros q x Hq. now rewrite set_children_eq.
  - inversion H as [|? ? (H1 & H2 & H3) H']; subst. cbn [fst snd] in *. rewrite H1.
    destruct (Nat.eqb_spec (lget lk c) 0); [contradiction|].
    unfold links_root, links_to. cbn [filter snd]. destruct (Z.eqb_spec p nilInstance) as [->|Hp]; cbn [negb andb map fst].
    + destruct (IH (S i) h (rt ++ [lget lk c]) ws H') as (h' & E & Hl & Hs). exists h'. rewrite E, <- app_assoc. auto.
    + destruct H3 as [H3|(pp & x0 & Hpp & Hx0)]; [contradiction|]. rewrite Hpp, Hx0.
      assert (Hlp : lget lk p = pp) by (unfold lget; now rewrite Hpp). rewrite Hlp.
      destruct (IH (S i) (hset h pp (set_children x0 (i_children x0 ++ [lget lk c]))) rt ws) as (h' & E & Hl & Hs).
      { eapply Forall_impl; [|exact H']. intros [c' p'] (A & B & C). split; [exact A|]. split; [exact B|].
        destruct C as [C|(pp' & x' & C1 & C2)]; [now left|]. right. exists pp'. rewrite hget_hset.
        destruct (pp' =? pp)%nat; [|eauto]. rewrite Hx0. cbn. eauto. }
      exists h'. split; [exact E|]. split; [now rewrite Hl, hset_length|].
      intros q x Hq. specialize (Hs q). rewrite hget_hset in Hs. rewrite (Nat.eqb_sym pp q). destruct (Nat.eqb_spec q pp) as [Ee|].
      * assert (x0 = x) as -> by congruence. rewrite Hx0 in Hs. rewrite (Hs _ eq_refl). cbn [set_children i_children].
        rewrite <- app_assoc. reflexivity.
      * exact (Hs x Hq).
Qed.

(** ** META *)
Lemma fold_mset_find (l : list (bytes * bytes)) : NoDup (map fst l) -> forall m k,
  mfind (fold_left (fun m kv => mset m (fst kv) (snd kv)) l m) k = match mfind l k with Some v => Some v | None => mfind m k end.
Proof.
  induction l as [|[a b] l IH]; intros Hn m k; cbn [fold_left mfind map fst]; [reflexivity|].
  inversion Hn as [|? ? Ha Hn']; subst. rewrite IH by exact Hn'. cbn [fst snd]. rewrite mfind_mset.
  destruct (beqb_spec a k) as [->|]; [|reflexivity].
  destruct (mfind l k) eqn:E; [|reflexivity]. exfalso. apply Ha. apply mfind_key. eauto.
Qed.
