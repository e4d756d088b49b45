(** RbxlCodecTree.v - what Decode of the codec makes of the chunks of a file. *)
From Coq Require Import Permutation.
From Verif Require Import Base RbxlValues RbxlArrays RbxlArraysProofs RbxlModel RbxlFile RbxlFileProofs RbxValues Tree RbxlCodec
  SpecValues SpecArrays SpecModel SpecFile SpecTree SpecCodec SpecTables SpecDecode TreeProofs RbxlCodecDec.

(** ** Addresses *)
Lemma address_nth : forall ids k z, NoDup ids -> nth_error ids k = Some z -> address ids z = S k.
Proof.
  induction ids as [|y ids IH]; intros [|k] z Hn Hk; try discriminate; cbn [address].
  - injection Hk as ->. now rewrite Z.eqb_refl.
  - inversion Hn as [|? ? Hy Hn']; subst. cbn in Hk. destruct (Z.eqb_spec y z) as [->|].
    + exfalso. apply Hy. eapply nth_error_In; eauto.
    + now rewrite (IH _ _ Hn' Hk).
Qed.
Lemma address_none : forall ids z, ~ In z ids -> address ids z = 0.
Proof.
  induction ids as [|y ids IH]; intros z H; [reflexivity|]. cbn [address].
  destruct (Z.eqb_spec y z) as [->|]; [exfalso; apply H; now left|]. rewrite IH; [reflexivity|]. intros Hi. apply H. now right.
Qed.
Lemma address_some : forall ids z, In z ids -> exists k, nth_error ids k = Some z /\ address ids z = S k.
Proof.
  induction ids as [|y ids IH]; intros z []; cbn [address].
  - subst. exists 0. now rewrite Z.eqb_refl.
  - destruct (Z.eqb_spec y z) as [->|]; [now exists 0|]. destruct (IH z H) as (k & H1 & ->). now exists (S k).
Qed.
Lemma address_app ids more z : In z ids -> address (ids ++ more) z = address ids z.
Proof.
  induction ids as [|y ids IH]; intros []; cbn [app address].
  - subst. now rewrite Z.eqb_refl.
  - destruct (Z.eqb_spec y z); [reflexivity|]. now rewrite IH.
Qed.
Lemma has_id_In ids z : has_id ids z = true <-> In z ids.
Proof.
  unfold has_id. rewrite existsb_exists. split.
  - intros (x & Hx & E). apply Z.eqb_eq in E. now subst.
  - intros H. exists z. split; [exact H|apply Z.eqb_refl].
Qed.
Lemma lget_address lk ids z : lookup_ok lk ids -> NoDup ids -> ~ In nilInstance ids -> lget lk z = address ids z.
Proof.
  intros (L0 & L1 & L2) Hn Hnil. unfold lget.
  destruct (in_dec Z.eq_dec z ids) as [Hi|Hi].
  - destruct (address_some ids z Hi) as (k & Hk & ->). now rewrite (L1 _ _ Hk).
  - rewrite (address_none ids z Hi). destruct (Z.eq_dec z nilInstance) as [->|Hz]; [now rewrite L0|now rewrite (L2 z Hz Hi)].
Qed.

(** ** Chunks *)
Lemma groups_app a b : groups_in (a ++ b) = groups_in a ++ groups_in b.
Proof. apply flat_map_app. Qed.
Lemma columns_app a b : columns_in (a ++ b) = columns_in a ++ columns_in b.
Proof. apply flat_map_app. Qed.
Lemma strings_app a b : strings_in (a ++ b) = strings_in a ++ strings_in b.
Proof. apply flat_map_app. Qed.
Lemma ids_app a b : ids_in (a ++ b) = ids_in a ++ ids_in b.
Proof. unfold ids_in. now rewrite groups_app, flat_map_app. Qed.
Lemma links_app : forall a known b, links_of known (a ++ b) = links_of known a ++ links_of (known ++ ids_in a) b.
Proof.
  induction a as [|c a IH]; intros known b; cbn [app links_of].
  - unfold ids_in. cbn. now rewrite app_nil_r.
  - assert (E : ids_in (c :: a) = ids_in [c] ++ ids_in a) by (apply (ids_app [c] a)). rewrite E.
    unfold ids_in at 1. cbn [groups_in flat_map]. destruct (ch_payload c); cbn [app flat_map gr_ids]; rewrite ?app_nil_r, IH, ?app_assoc; reflexivity.
Qed.
Lemma links_In : forall cs known cp, In cp (links_of known cs) ->
  In (fst cp) (known ++ ids_in cs) /\ (snd cp = (-1)%Z \/ In (snd cp) (known ++ ids_in cs)).
Proof.
  induction cs as [|c cs IH]; intros known cp; cbn [links_of]; [intros []|].
  assert (E : ids_in (c :: cs) = ids_in [c] ++ ids_in cs) by (apply (ids_app [c] cs)). rewrite E.
  unfold ids_in at 1 3. cbn [groups_in flat_map].
  destruct (ch_payload c); cbn [app flat_map gr_ids]; rewrite ?app_nil_r, ?app_assoc; try apply IH.
  intros H. apply in_app_or in H. destruct H as [H|H]; [|now apply IH].
  apply filter_In in H. destruct H as [_ H]. unfold counts in H. apply andb_prop in H. destruct H as [H1 H2].
  apply has_id_In in H1. apply orb_prop in H2. split; [apply in_or_app; now left|].
  destruct H2 as [H2|H2]; [left; now apply Z.eqb_eq|right; apply in_or_app; left; now apply has_id_In].
Qed.
Lemma kids_app a b z : kids (a ++ b) z = kids a z ++ kids b z.
Proof. unfold kids. now rewrite filter_app, map_app. Qed.
Lemma kids_none l z : (forall cp, In cp l -> snd cp <> z) -> kids l z = [].
Proof.
  induction l as [|cp l IH]; intros H; [reflexivity|]. unfold kids. cbn [filter].
  destruct (Z.eqb_spec (snd cp) z) as [E|]; [exfalso; apply (H cp); [now left|exact E]|].
  apply IH. intros c' Hc. apply H. now right.
Qed.
Lemma kids_In l z y : In y (kids l z) -> In (y, z) l.
Proof.
  unfold kids. intros H. apply in_map_iff in H. destruct H as ([a b] & <- & H). apply filter_In in H.
  cbn in *. destruct H as [H E]. apply Z.eqb_eq in E. now subst.
Qed.
Lemma last_column_snoc q2m cs c g name i v :
  last_column q2m (cs ++ [c]) g name i v <->
  (exists a, ch_payload c = PProp g name (Some a) /\ reads q2m (ids_in cs) (last_strings cs) a i v) \/
  ((forall a, ch_payload c <> PProp g name (Some a)) /\ last_column q2m cs g name i v).
Proof.
  assert (Hone : forall d, (forall a, ~ In (g, name, Some a) (columns_in [d])) <-> (forall a, ch_payload d <> PProp g name (Some a))).
  { intros d. unfold columns_in. cbn [flat_map]. rewrite app_nil_r. split; intros H a E.
    - apply (H a). rewrite E. now left.
    - destruct (ch_payload d); try contradiction. destruct E as [E|[]]. injection E as -> -> ->. now apply (H a). }
  split.
  - intros (before & d & a & after & E & Ed & Hr & Hn).
    destruct (exists_last (l := d :: after)) as (l' & e & El); [discriminate|].
    destruct after as [|d' after].
    + apply app_inj_tail in E. destruct E as [-> ->]. left. eauto.
    + right. destruct l' as [|d0 l']; [discriminate|]. injection El as <- El.
      rewrite El in E. change (before ++ d :: l' ++ [e]) with (before ++ (d :: l') ++ [e]) in E. rewrite app_assoc in E. apply app_inj_tail in E.
      destruct E as [-> ->]. rewrite El, columns_app in Hn. split.
      * apply Hone. intros a' Ha. apply (Hn a'). apply in_or_app. now right.
      * exists before, d, a, l'. split; [reflexivity|]. split; [exact Ed|]. split; [exact Hr|].
        intros a' Ha. apply (Hn a'). apply in_or_app. now left.
  - intros [(a & E & Hr)|(Hn & before & d & a & after & -> & Ed & Hr & Ha)].
    + exists cs, c, a, []. split; [reflexivity|]. split; [exact E|]. split; [exact Hr|]. intros a' [].
    + exists before, d, a, (after ++ [c]). split; [now rewrite <- app_assoc|]. split; [exact Ed|]. split; [exact Hr|].
      intros a' Hin. rewrite columns_app in Hin. apply in_app_or in Hin. destruct Hin as [Hin|Hin]; [now apply (Ha a')|].
      now apply Hone in Hin.
Qed.

(** ** Files *)
Record file_model (f : fmodel) : Prop := {
  fi_shape : exists body c, fm_chunks f = body ++ [c] /\ is_end c = true /\ Forall (fun c => is_end c = false) body;
  fi_groups : fm_groups f = grow_all [] 0 (fm_chunks f);
  fi_prop : forall pre c post id name a, fm_chunks f = pre ++ c :: post -> ch_payload c = PProp id name a ->
    exists n, group_len (grow_all [] 0 pre) id = Some n /\ (forall a', a = Some a' -> wf_array a' /\ arr_len a' = n) }.

Definition extend_all (g : Z -> option nat) (cs : list chunk) : Z -> option nat :=
  fold_left (fun g c => extend g (ch_payload c)) cs g.
Lemma grow_all_len : forall cs g i k, group_len (grow_all g i cs) k = extend_all (group_len g) cs k.
Proof.
  induction cs as [|c cs IH]; intros g i k; [reflexivity|]. cbn [grow_all extend_all fold_left]. rewrite IH.
  unfold extend_all. assert (H : forall g g', (forall k, g k = g' k) -> fold_left (fun g c => extend g (ch_payload c)) cs g k = fold_left (fun g c => extend g (ch_payload c)) cs g' k).
  { clear. induction cs as [|c cs IH]; intros g g' H; cbn [fold_left]; [apply H|]. apply IH. now apply extend_ext. }
  apply H. intros k'. apply grow_len.
Qed.
Lemma steps_shape spare g i rcs cs ws : steps spare g i rcs cs ws ->
  exists body c, cs = body ++ [c] /\ is_end c = true /\ Forall (fun c => is_end c = false) body.
Proof.
  induction 1 as [g i rc p w H1 H2|g i rc rcs p w cs ws H1 H2 H3 (body & c & -> & Hc & Hb)].
  - exists [], (Chunk (raw_compressed rc) p). split; [reflexivity|]. split; [exact H2|constructor].
  - exists (Chunk (raw_compressed rc) p :: body), c. split; [reflexivity|]. split; [exact Hc|]. constructor; [exact H2|exact Hb].
Qed.
Lemma steps_nth spare g i rcs cs ws : steps spare g i rcs cs ws ->
  forall pre c post, cs = pre ++ c :: post -> exists j rc p w, step_out spare (extend_all g pre) j rc = Some (p, w) /\ ch_payload c = p.
Proof.
  induction 1 as [g i rc p w H1 H2|g i rc rcs p w cs ws H1 H2 H3 IH]; intros pre c post E.
  - destruct pre as [|c0 pre]; [|destruct pre; discriminate]. injection E as <- <-. exists i, rc, p, w. auto.
  - destruct pre as [|c0 pre]; cbn [app] in E.
    + injection E as <- <-. exists i, rc, p, w. auto.
    + injection E as <- E. destruct (IH pre c post E) as (j & rc' & p' & w' & E1 & E2). exists j, rc', p', w'. auto.
Qed.
Lemma step_out_prop spare g i rc id name a w : step_out spare g i rc = Some (PProp id name a, w) ->
  exists n, g id = Some n /\ (forall a', a = Some a' -> wf_array a' /\ arr_len a' = n).
Proof.
  unfold step_out. destruct (read_payload spare g (raw_sig rc) (raw_payload rc)) as [[p r]|[e r]| |] eqn:E; try discriminate.
  intros H. injection H as -> _. revert E. unfold read_payload.
  destruct (raw_sig rc =? sigMETA)%N; [unfold read_meta; intros H; repeat inv_bind H; discriminate|].
  destruct (raw_sig rc =? sigSSTR)%N; [unfold read_sstr; intros H; repeat inv_bind H; discriminate|].
  destruct (raw_sig rc =? sigINST)%N; [unfold read_inst; intros H; repeat inv_bind H; discriminate|].
  destruct (raw_sig rc =? sigPROP)%N.
  2:{ destruct (raw_sig rc =? sigPRNT)%N; [unfold read_prnt; intros H; repeat inv_bind H; discriminate|].
      destruct (raw_sig rc =? sigEND)%N; discriminate. }
  unfold read_prop. intros H. apply bind_OK in H. destruct H as ([id' b1] & _ & H). destruct (g id') as [n|] eqn:Eg; [|discriminate].
  apply bind_OK in H. destruct H as ([nm raw] & _ & H). destruct raw as [|tb raw].
  - injection H as <- <- <- <-. exists n. split; [exact Eg|discriminate].
  - destruct (typeArrayFromBytes_total (spare (length (tb :: raw))) n (tb :: raw)) as [[e E]|[(a0 & m & E & Hw & Hl & _)|[E _]]];
      rewrite E in H; try discriminate. injection H as <- <- <- _. exists n. split; [exact Eg|]. intros a' [= <-]. auto.
Qed.
Lemma decode_file_model lz spare noXML input f ws st :
  decode lz spare noXML input = OK (DModel f, ws, st) -> file_model f.
Proof.
  intros H. destruct (decode_model_inv _ _ _ _ _ _ _ H) as (cc & ic & rsv & fs & rcs & cs & w & g & Eg & _ & _ & _ & _ & _ & Hs & _ & Ef & _).
  rewrite Ef. split; cbn [fm_chunks fm_groups].
  - eapply steps_shape; eauto.
  - exact Eg.
  - intros pre c post id name a E Ec. destruct (steps_nth _ _ _ _ _ _ Hs pre c post E) as (j & rc & p & w' & E1 & E2).
    rewrite Ec in E2. subst p. apply step_out_prop in E1. rewrite grow_all_len. exact E1.
Qed.

Lemma grow_all_get : forall cs g i id pos ids, group_get (grow_all g i cs) id = Some (pos, ids) ->
  group_get g id = Some (pos, ids) \/
  (i <= pos /\ exists c class svc gs, nth_error cs (pos - i) = Some c /\ ch_payload c = PInst id class ids svc gs).
Proof.
  induction cs as [|c cs IH]; intros g i id pos ids H; [now left|]. cbn [grow_all] in H.
  destruct (IH _ _ _ _ _ H) as [H1|(Hp & d & class & svc & gs & Hd & Ed)].
  - assert (Hold : grow g i (ch_payload c) = g \/ exists id' class ids' svc gs, ch_payload c = PInst id' class ids' svc gs).
    { destruct (ch_payload c); cbn [grow]; eauto 8. }
    destruct Hold as [E|(id' & class & ids' & svc & gs & E)]; [rewrite E in H1; now left|].
    rewrite E in H1. cbn [grow group_set group_get] in H1. destruct (Z.eqb_spec id' id) as [->|]; [|now left].
    injection H1 as <- <-. right. split; [lia|]. rewrite Nat.sub_diag. exists c, class, svc, gs. auto.
  - right. split; [lia|]. exists d, class, svc, gs. replace (pos - i) with (S (pos - S i)) by lia. auto.
Qed.
Lemma group_len_in cs id n : group_len (grow_all [] 0 cs) id = Some n ->
  exists class ids, In (Group id class ids) (groups_in cs).
Proof.
  unfold group_len. destruct (group_get (grow_all [] 0 cs) id) as [[pos ids]|] eqn:E; [|discriminate]. intros _.
  destruct (grow_all_get _ _ _ _ _ _ E) as [H|(_ & c & class & svc & gs & Hn & Hc)]; [discriminate|].
  exists class, ids. apply in_flat_map. exists c. split; [eapply nth_error_In; eauto|]. rewrite Hc. now left.
Qed.
Lemma group_at cs g : In g (groups_in cs) -> exists pos c svc gs, nth_error cs pos = Some c /\ ch_payload c = PInst (gr_id g) (gr_class g) (gr_ids g) svc gs.
Proof.
  intros H. apply in_flat_map in H. destruct H as (c & Hc & H). apply In_nth_error in Hc. destruct Hc as [pos Hp].
  exists pos, c. destruct (ch_payload c); try contradiction. destruct H as [<-|[]]. cbn. eauto.
Qed.

(** ** Chunks of properties and links *)
Lemma dec_insts_inv bound class svc : forall ids gs h lk zs h' lk',
  dec_insts bound class svc gs ids h lk = OK (h', lk') -> lookup_ok lk zs -> length h = length zs -> NoDup zs ->
  NoDup (zs ++ ids) /\ Forall (fun z => out_of_bounds z bound = false) ids.
Proof.
  induction ids as [|z ids IH]; intros gs h lk zs h' lk' H Hl Hh Hn; [rewrite app_nil_r; auto|]. cbn [dec_insts] in H.
  destruct (out_of_bounds z bound) eqn:Ez; [discriminate|]. destruct (lfind lk z) eqn:Ef; [discriminate|].
  assert (Hz : ~ In z zs).
  { intros Hi. apply In_nth_error in Hi. destruct Hi as [k Hk]. destruct Hl as (_ & L & _). rewrite (L _ _ Hk) in Ef. discriminate. }
  assert (Hn' : NoDup (zs ++ [z])).
  { rewrite <- (rev_involutive (zs ++ [z])), rev_app_distr. apply NoDup_rev. cbn [rev app]. constructor; [now rewrite <- in_rev|now apply NoDup_rev]. }
  destruct (dec_insts_spec bound class svc [z] gs h lk zs Hl Hh Hn') as (lk1 & E1 & Hl1); [constructor; auto|].
  cbn [dec_insts] in E1. rewrite Ez, Ef in E1. injection E1 as <-.
  destruct (IH _ _ _ (zs ++ [z]) _ _ H Hl1) as [A B]; auto.
  { rewrite !app_length. cbn. lia. }
  rewrite <- app_assoc in A. split; [exact A|constructor; auto].
Qed.
Lemma mk_insts_nth class svc : forall ids gs k, k < length ids ->
  nth_error (mk_insts class svc gs ids) k = Some (Inst class [] (svc && Byte.eqb (nth k gs x00) x01) [] []).
Proof.
  induction ids as [|z ids IH]; intros gs k Hk; cbn [length] in Hk; [lia|]. destruct k as [|k]; cbn [mk_insts nth_error].
  - destruct gs; reflexivity.
  - rewrite IH by lia. destruct gs as [|b gs]; cbn [tl nth]; [destruct k|]; reflexivity.
Qed.
Lemma mk_insts_len class svc : forall ids gs, length (mk_insts class svc gs ids) = length ids.
Proof. induction ids; intros gs; cbn [mk_insts length]; auto. Qed.

(** Reading a cell. *)
Lemma nth_shared (l : list (bytes * bytes)) n : (if (n <? N.of_nat (length l))%N then snd (nth (N.to_nat n) l ([], [])) else []) = nth (N.to_nat n) (map snd l) [].
Proof.
  destruct (n <? N.of_nat (length l))%N eqn:E.
  - change (@nil byte) with (snd (@nil byte, @nil byte)) at 3. now rewrite map_nth.
  - apply N.ltb_ge in E. rewrite nth_overflow; [reflexivity|]. rewrite map_length. lia.
Qed.
Lemma dec_value_reads q2m lk ids shared a i v : lookup_ok lk ids -> NoDup ids -> ~ In nilInstance ids ->
  dec_value q2m lk shared a i = OK v -> reads q2m ids (map snd shared) a i v.
Proof.
  intros Hl Hn Hnil H.
  destruct a as [t vs|[a|] ps]; [| |discriminate].
  - assert (Hp : (match t with tReference | tSharedString => False | _ => True end) -> reads q2m ids (map snd shared) (ARR t vs) i v).
    { intros Ht. unfold dec_value in H. destruct t; try contradiction;
        (destruct (nth_error vs i) as [b|] eqn:E; [|discriminate]; destruct (decodeValue q2m b) eqn:Eb; [|discriminate]; injection H as <-;
         eapply reads_plain; eauto). }
    destruct t; try (now apply Hp); cbn [dec_value] in H; destruct (nth_error vs i) as [b|] eqn:E; try discriminate; destruct b; try discriminate;
      injection H as <-.
    + rewrite (lget_address lk ids _ Hl Hn Hnil). now constructor.
    + rewrite nth_shared. now constructor.
  - cbn [dec_value] in H. destruct (nth_error ps i) as [[]|] eqn:E; [| |discriminate].
    + apply bind_OK in H. destruct H as ([b|] & Eb & H); [|discriminate]. destruct (decodeValue q2m b) eqn:Ed; [|discriminate].
      injection H as <-. eapply reads_present; eauto.
    + injection H as <-. now constructor.
Qed.
(** When it cannot be read. *)
Lemma arr_get_ok a : wf_array a -> forall i, i < arr_len a -> exists o, arr_get a i = OK o /\ (forall b, o = Some b -> vtype b = elem_type a).
Proof.
  induction 1 as [t vs Ht Hv|v ps IHw IH Hl]; intros i Hi; cbn [arr_get arr_len elem_type] in *.
  - destruct (nth_error vs i) as [b|] eqn:E; [|apply nth_error_None in E; lia]. exists (Some b). split; [reflexivity|].
    intros b' [= <-]. rewrite Forall_forall in Hv. apply (Hv b). eapply nth_error_In; eauto.
  - destruct (nth_error ps i) as [[]|] eqn:E; [apply IH; lia|exists None; split; [reflexivity|discriminate]|apply nth_error_None in E; lia].
Qed.
Lemma decodeValue_none q2m b : decodeValue q2m b = None -> (exists z, b = VReference z) \/ (exists n, b = VSharedString n).
Proof. destruct b; try discriminate; eauto. Qed.
Lemma dec_value_safe q2m lk shared a i : wf_array a -> i < arr_len a ->
  (exists v, dec_value q2m lk shared a i = OK v) \/ (dec_value q2m lk shared a i = Panic /\ unreadable a).
Proof.
  intros Hw Hi. destruct Hw as [t vs Ht Hv|v ps Hw Hl]; cbn [arr_len] in Hi.
  - left. destruct (nth_error vs i) as [b|] eqn:E; [|apply nth_error_None in E; lia].
    assert (Hb : vtype b = t) by (rewrite Forall_forall in Hv; apply (Hv b); eapply nth_error_In; eauto).
    assert (Hp : (match t with tReference | tSharedString => False | _ => True end) -> exists v, dec_value q2m lk shared (ARR t vs) i = OK v).
    { intros Hp. destruct (decodeValue q2m b) as [r|] eqn:Ed.
      - exists r. unfold dec_value. destruct t; try contradiction; now rewrite E, Ed.
      - exfalso. destruct (decodeValue_none _ _ Ed) as [[z ->]|[n ->]]; cbn in Hb; subst t; exact Hp. }
    destruct t; try (now apply Hp); cbn [dec_value]; rewrite E; destruct b; try discriminate Hb; eauto.
  - cbn [dec_value]. destruct (nth_error ps i) as [[]|] eqn:E; [| |apply nth_error_None in E; cbn [arr_len] in *; lia].
    + destruct (arr_get_ok v Hw i) as (o & Eo & _); [lia|]. rewrite Eo. cbn [obind]. destruct o as [b|].
      * destruct (decodeValue q2m b) eqn:Ed; [left; eauto|]. right. split; [reflexivity|]. exists v, ps, i. split; [reflexivity|]. split; [exact E|].
        right. destruct (decodeValue_none _ _ Ed) as [[z ->]|[n ->]]; eauto.
      * right. split; [reflexivity|]. exists v, ps, i. auto.
    + left. eauto.
Qed.
Lemma dec_props_cases q2m lk shared name a : wf_array a -> forall ids i h,
  i + length ids = arr_len a -> (forall z, In z ids -> exists x, hget h (lget lk z) = Some x) ->
  (exists h', dec_props q2m lk shared name a i ids h = OK h') \/ (dec_props q2m lk shared name a i ids h = Panic /\ unreadable a).
Proof.
  intros Hw. induction ids as [|z ids IH]; intros i h Hl Hg; cbn [dec_props]; [left; eauto|]. cbn [length] in Hl.
  destruct (dec_value_safe q2m lk shared a i Hw) as [[v ->]|[-> Hu]]; [lia| |right; auto]. cbn [obind].
  destruct (Hg z) as [x Hx]; [now left|]. rewrite Hx. apply IH; [lia|].
  intros y Hy. rewrite hget_hset. destruct (lget lk y =? lget lk z)%nat; [rewrite Hx; cbn; eauto|]. apply Hg. now right.
Qed.
Lemma dec_props_inv q2m lk shared name a : forall ids i h h', dec_props q2m lk shared name a i ids h = OK h' ->
  length h' = length h /\ exists vs, length vs = length ids /\
   (forall j v, nth_error vs j = Some v -> dec_value q2m lk shared a (i + j) = OK v) /\
   (forall z, In z ids -> exists x, hget h (lget lk z) = Some x).
Proof.
  induction ids as [|z ids IH]; intros i h h' H; cbn [dec_props] in H.
  - injection H as <-. split; [reflexivity|]. exists []. split; [reflexivity|]. split; [intros [|j] v Hj; discriminate|intros z []].
  - apply bind_OK in H. destruct H as (v & Ev & H). destruct (hget h (lget lk z)) as [x|] eqn:Ex; [|discriminate].
    destruct (IH _ _ _ H) as (Hl & vs & Hv1 & Hv2 & Hv3). rewrite hset_length in Hl. split; [exact Hl|]. exists (v :: vs).
    split; [cbn; now rewrite Hv1|]. split.
    + intros [|j] w Hj; cbn in Hj; [injection Hj as <-; now rewrite Nat.add_0_r|]. rewrite <- Nat.add_succ_comm. now apply Hv2.
    + intros y [<-|Hy]; [eauto|]. destruct (Hv3 y Hy) as [x' Hx']. rewrite hget_hset in Hx'.
      destruct (Nat.eqb_spec (lget lk y) (lget lk z)) as [E|]; [rewrite E; eauto|eauto].
Qed.

(** Links. *)
Lemma dec_links_filter ic bound lk ids : lookup_ok lk ids -> NoDup ids -> ~ In nilInstance ids -> forall l i h rt ws h' rt' ws',
  length h = length ids ->
  dec_links ic bound lk i l h rt ws = OK (h', rt', ws') ->
  Forall (fun cp => out_of_bounds (fst cp) bound = false) l /\
  length h' = length h /\ rt' = rt ++ map (address ids) (kids (filter (counts ids) l) nilInstance) /\
  (forall k z x, nth_error ids k = Some z -> hget h (S k) = Some x ->
     hget h' (S k) = Some (set_children x (i_children x ++ map (address ids) (kids (filter (counts ids) l) z)))).
Proof.
  intros Hl Hn Hnil. pose proof (fun z => lget_address lk ids z Hl Hn Hnil) as Ha. destruct Hl as (L0 & L1 & L2).
  assert (Hlf : forall z, lfind lk z = if (z =? nilInstance)%Z then Some 0 else if has_id ids z then Some (address ids z) else None).
  { intros z. destruct (Z.eqb_spec z nilInstance) as [->|Hz]; [exact L0|]. destruct (has_id ids z) eqn:E.
    - apply has_id_In in E. destruct (address_some ids z E) as (k & Hk & ->). now apply L1.
    - apply L2; [exact Hz|]. intros Hi. apply has_id_In in Hi. congruence. }
  induction l as [|[c p] l IH]; intros i h rt ws h' rt' ws' Hh H; cbn [dec_links] in H.
  - injection H as <- <- <-. split; [constructor|]. split; [reflexivity|]. cbn. rewrite app_nil_r. split; [reflexivity|].
    intros k z x _ Hx. now rewrite set_children_eq.
  - destruct (out_of_bounds c bound) eqn:Eb; [discriminate|]. rewrite !Ha in H. cbn [filter].
    assert (Ecnt : counts ids (c, p) = has_id ids c && ((p =? nilInstance)%Z || has_id ids p)) by reflexivity. rewrite Ecnt.
    destruct (has_id ids c) eqn:Ec.
    2:{ assert (Hc0 : address ids c = 0) by (apply address_none; intros Hi; apply has_id_In in Hi; congruence).
        rewrite Hc0, Nat.eqb_refl in H.
        destruct (IH _ _ _ _ _ _ _ Hh H) as (A & B & C & D). cbn [andb].
        split; [constructor; [exact Eb|exact A]|]. split; [exact B|]. split; [exact C|exact D]. }
    pose proof Ec as Ec'. apply has_id_In in Ec'. destruct (address_some ids c Ec') as (kc & Hkc & Eac).
    destruct (Nat.eqb_spec (address ids c) 0) as [E0|_]; [congruence|].
    cbn [andb].
    destruct (Z.eqb_spec p nilInstance) as [->|Hp]; cbn [orb].
    + destruct (IH _ _ _ _ _ _ _ Hh H) as (A & B & C & D). split; [constructor; auto|]. split; [exact B|]. split.
      * rewrite C, <- app_assoc. unfold kids. cbn [filter snd]. rewrite Z.eqb_refl. reflexivity.
      * intros k z x Hk Hx. rewrite (D k z x Hk Hx). unfold kids. cbn [filter snd].
        destruct (Z.eqb_spec nilInstance z) as [<-|]; [exfalso; apply Hnil; eapply nth_error_In; eauto|reflexivity].
    + rewrite Hlf in H. destruct (Z.eqb_spec p nilInstance) as [|_]; [contradiction|]. destruct (has_id ids p) eqn:Ep.
      2:{ destruct (IH _ _ _ _ _ _ _ Hh H) as (A & B & C & D). split; [constructor; [exact Eb|exact A]|]. split; [exact B|]. split; [exact C|exact D]. }
      pose proof Ep as Ep'. apply has_id_In in Ep'. destruct (address_some ids p Ep') as (kp & Hkp & Eap). rewrite Eap in H.
      assert (Hkp' : kp < length ids) by (apply nth_error_Some; congruence).
      destruct (hget_range h (S kp)) as [xp Hxp]; [lia|]. rewrite Hxp in H.
      destruct (IH (S i) (hset h (S kp) (set_children xp (i_children xp ++ [address ids c]))) rt ws h' rt' ws') as (A & B & C & D); [now rewrite hset_length|exact H|].
      split; [constructor; auto|]. split; [now rewrite B, hset_length|]. split.
      * rewrite C. unfold kids. cbn [filter snd]. destruct (Z.eqb_spec p nilInstance); [contradiction|reflexivity].
      * intros k z x Hk Hx. specialize (D k z). rewrite hget_hset in D. unfold kids. cbn [filter snd].
        destruct (Nat.eqb_spec (S k) (S kp)) as [E|E].
        -- injection E as ->. assert (p = z) as -> by congruence. assert (xp = x) as -> by congruence. rewrite Hxp in D.
           cbn [option_map] in D. rewrite (D _ Hk eq_refl). rewrite Z.eqb_refl. cbn [map fst set_children i_children]. now rewrite <- app_assoc.
        -- rewrite (D x Hk Hx). destruct (Z.eqb_spec p z) as [->|]; [|reflexivity].
           exfalso. apply E. f_equal. eapply (proj1 (NoDup_nth_error ids) Hn); [apply nth_error_Some; congruence|congruence].
Qed.
Lemma dec_links_safe ic bound lk ids : lookup_ok lk ids -> forall l i h rt ws, length h = length ids ->
  dec_links ic bound lk i l h rt ws <> Panic /\ dec_links ic bound lk i l h rt ws <> Hang.
Proof.
  intros (L0 & L1 & L2). induction l as [|[c p] l IH]; intros i h rt ws Hh; cbn [dec_links]; [split; discriminate|].
  destruct (out_of_bounds c bound); [split; discriminate|]. destruct (lget lk c =? 0)%nat; [now apply IH|].
  destruct (Z.eqb_spec p nilInstance) as [->|Hp]; [now apply IH|]. destruct (lfind lk p) as [pp|] eqn:E; [|now apply IH].
  assert (Hi : In p ids). { destruct (in_dec Z.eq_dec p ids) as [|Hi]; [assumption|]. rewrite (L2 p Hp Hi) in E. discriminate. }
  apply In_nth_error in Hi. destruct Hi as [k Hk]. rewrite (L1 _ _ Hk) in E. injection E as <-.
  assert (k < length ids) by (apply nth_error_Some; congruence). destruct (hget_range h (S k)) as [x Hx]; [lia|]. rewrite Hx.
  apply IH. now rewrite hset_length.
Qed.

(** ** The state after some chunks *)
Record after (q2m : quat) (f : fmodel) (pre : list chunk) (s : dcs) : Prop := {
  af_look : lookup_ok (k_look s) (ids_in pre);
  af_len : length (k_heap s) = length (ids_in pre);
  af_nodup : NoDup (ids_in pre);
  af_bound : Forall (fun z => out_of_bounds z (fm_instCount f) = false) (ids_in pre);
  af_pos : forall pos c id class ids svc gs, nth_error pre pos = Some c -> ch_payload c = PInst id class ids svc gs ->
    group_get (fm_groups f) id = Some (pos, ids);
  af_inst : forall k z, nth_error (ids_in pre) k = Some z ->
    exists x, hget (k_heap s) (S k) = Some x /\ described q2m pre z x;
  af_root : k_root s = map (address (ids_in pre)) (kids (links_of [] pre) nilInstance);
  af_shared : map snd (k_shared s) = last_strings pre;
  af_meta : k_meta s = fold_left (fun m kv => mset m (fst kv) (snd kv)) (concat (metadata_in pre)) [] }.
Lemma after_nil q2m f : after q2m f [] k0.
Proof.
  split.
  - apply lookup_ok_nil.
  - reflexivity.
  - constructor.
  - constructor.
  - intros [|pos] c id class ids svc gs H; discriminate.
  - intros [|k] z H; discriminate.
  - reflexivity.
  - reflexivity.
  - reflexivity.
Qed.
Lemma bound_nil bound ids : Forall (fun z => out_of_bounds z bound = false) ids -> ~ In nilInstance ids.
Proof. intros H Hi. rewrite Forall_forall in H. specialize (H _ Hi). discriminate. Qed.

(** Chunks that say nothing about instances. *)
Lemma reads_any_silent q2m pre c z x : groups_in [c] = [] -> columns_in [c] = [] -> links_of (ids_in pre) [c] = [] ->
  described q2m pre z x -> described q2m (pre ++ [c]) z x.
Proof.
  intros Hg Hc Hl [(g & i & (ids & H1 & H2) & H3) H4 H5 H6].
  assert (Hid : ids_in [c] = []) by (unfold ids_in; now rewrite Hg).
  split.
  - exists g, i. split.
    + exists ids. rewrite groups_app. split; [apply in_or_app; now left|exact H2].
    + intros name v. rewrite H3, last_column_snoc. split; [right; split; [|assumption]|intros [(a & E & _)|[_ H]]; [|exact H]].
      * intros a E. unfold columns_in in Hc. cbn in Hc. rewrite E in Hc. discriminate.
      * unfold columns_in in Hc. cbn in Hc. rewrite E in Hc. discriminate.
  - rewrite H4. split; intros (d & g' & cl & ids' & gs & j & A & B & C & D); exists d, g', cl, ids', gs, j.
    + split; [apply in_or_app; now left|auto].
    + apply in_app_or in A. destruct A as [A|[<-|[]]]; [auto|]. unfold groups_in in Hg. cbn in Hg. rewrite B in Hg. discriminate.
  - exact H5.
  - rewrite ids_app, links_app, Hid. cbn [app]. now rewrite Hl, !app_nil_r.
Qed.
Lemma after_silent q2m f pre c s s' : after q2m f pre s ->
  groups_in [c] = [] -> columns_in [c] = [] -> links_of (ids_in pre) [c] = [] ->
  k_heap s' = k_heap s -> k_look s' = k_look s -> k_root s' = k_root s ->
  map snd (k_shared s') = last_strings (pre ++ [c]) ->
  k_meta s' = fold_left (fun m kv => mset m (fst kv) (snd kv)) (concat (metadata_in (pre ++ [c]))) [] ->
  after q2m f (pre ++ [c]) s'.
Proof.
  intros [H1 H2 H3 H4 H5 H6 H7 H8 H9] Hg Hc Hl E1 E2 E3 E4 E5.
  assert (Hid : ids_in [c] = []) by (unfold ids_in; now rewrite Hg).
  assert (Hid' : ids_in (pre ++ [c]) = ids_in pre) by now rewrite ids_app, Hid, app_nil_r.
  split; rewrite ?Hid'; try (rewrite E1 || rewrite E2 || rewrite E3); auto.
  - intros pos d id class ids svc gs Hd Ed. destruct (Nat.lt_ge_cases pos (length pre)) as [Hp|Hp].
    + rewrite nth_error_app1 in Hd by exact Hp. eapply H5; eauto.
    + rewrite nth_error_app2 in Hd by exact Hp. destruct (pos - length pre) as [|m]; [|destruct m; discriminate].
      injection Hd as <-. unfold groups_in in Hg. cbn in Hg. rewrite Ed in Hg. discriminate.
  - intros k z Hk. destruct (H6 k z Hk) as (x & Hx & Hdx). exists x. split; [exact Hx|]. now apply reads_any_silent.
  - rewrite links_app. cbn [app]. now rewrite Hl, app_nil_r.
Qed.
Lemma meta_same pre c : metadata_in [c] = [] -> metadata_in (pre ++ [c]) = metadata_in pre.
Proof. intros H. unfold metadata_in in *. now rewrite flat_map_app, H, app_nil_r. Qed.
Lemma strings_same pre c : strings_in [c] = [] -> last_strings (pre ++ [c]) = last_strings pre.
Proof. intros H. unfold last_strings. now rewrite strings_app, H, app_nil_r. Qed.

(** INST *)
Lemma after_inst q2m f pre c post s id class ids svc gs h lk :
  file_model f -> fm_chunks f = pre ++ c :: post -> ch_payload c = PInst id class ids svc gs -> after q2m f pre s ->
  svc && negb (length ids =? length gs)%nat = false ->
  dec_insts (fm_instCount f) class svc gs ids (k_heap s) (k_look s) = OK (h, lk) ->
  (exists r, group_get (fm_groups f) id = Some (length pre, r)) ->
  after q2m f (pre ++ [c]) (Dcs h lk (k_root s) (k_meta s) (k_shared s) (k_warns s)).
Proof.
  intros Hf Ef Ec [H1 H2 H3 H4 H5 H6 H7 H8 H9] Hgs Hd [r Hr].
  destruct (dec_insts_inv _ _ _ _ _ _ _ _ _ _ Hd H1 H2 H3) as [Hn Hb].
  destruct (dec_insts_spec (fm_instCount f) class svc ids gs (k_heap s) (k_look s) (ids_in pre) H1 H2 Hn Hb) as (lk' & Ed & Hlk).
  rewrite Hd in Ed. injection Ed as -> ->.
  assert (Hidc : ids_in [c] = ids) by (unfold ids_in, groups_in; cbn; rewrite Ec; cbn; apply app_nil_r).
  assert (Hid : ids_in (pre ++ [c]) = ids_in pre ++ ids) by now rewrite ids_app, Hidc.
  assert (Hgc : groups_in [c] = [Group id class ids]) by (unfold groups_in; cbn; now rewrite Ec).
  assert (Hlc : links_of ([] ++ ids_in pre) [c] = []) by (cbn [links_of]; now rewrite Ec).
  assert (Hcc : forall g name a, ch_payload c <> PProp g name a) by (intros; rewrite Ec; discriminate).
  assert (Hids : r = ids).
  { rewrite (fi_groups f Hf) in Hr. destruct (grow_all_get _ _ _ _ _ _ Hr) as [Hx|(_ & d & cl & sv & gs' & Hd' & Ed')]; [discriminate|].
    rewrite Nat.sub_0_r, Ef, nth_error_app2 in Hd' by lia. rewrite Nat.sub_diag in Hd'. injection Hd' as <-. rewrite Ec in Ed'. congruence. }
  subst r.
  assert (Hnocol : forall name i v, ~ last_column q2m (pre ++ [c]) id name i v).
  { intros name i v Hl. apply last_column_snoc in Hl. destruct Hl as [(a & E & _)|(_ & before & d & a & aft & Ep & Ed' & _)]; [now apply Hcc in E|].
    destruct (fi_prop f Hf before d (aft ++ c :: post) id name (Some a)) as (n & Hn' & _); [rewrite Ef, Ep, <- app_assoc; reflexivity|exact Ed'|].
    apply group_len_in in Hn'. destruct Hn' as (cl & ids' & Hg). destruct (group_at _ _ Hg) as (pos & e & sv & gs' & He & Ee). cbn in Ee.
    assert (Hpos : pos < length before) by (apply nth_error_Some; congruence).
    rewrite (H5 pos e id cl ids' sv gs') in Hr; [|rewrite Ep, nth_error_app1 by exact Hpos; exact He|exact Ee].
    injection Hr as Hr _. rewrite Ep, app_length in Hr. lia. }
  split; cbn [k_heap k_look k_root k_meta k_shared]; rewrite ?Hid; auto.
  - rewrite !app_length, mk_insts_len. lia.
  - apply Forall_app. split; assumption.
  - intros pos d id' class' ids' svc' gs' Hd' Ed'. destruct (Nat.lt_ge_cases pos (length pre)) as [Hp|Hp].
    + rewrite nth_error_app1 in Hd' by exact Hp. eapply H5; eauto.
    + rewrite nth_error_app2 in Hd' by exact Hp. destruct (pos - length pre) as [|m] eqn:Em; [|destruct m; discriminate].
      injection Hd' as <-. rewrite Ec in Ed'. injection Ed' as <- <- <- <- <-. replace pos with (length pre) by lia. exact Hr.
  - intros k z Hk. destruct (Nat.lt_ge_cases k (length (ids_in pre))) as [Hlt|Hge].
    + rewrite nth_error_app1 in Hk by exact Hlt. destruct (H6 k z Hk) as (x & Hx & Hdx). exists x. rewrite hget_app by lia. split; [exact Hx|].
      assert (Hzi : In z (ids_in pre)) by (eapply nth_error_In; eauto).
      assert (Hzn : ~ In z ids).
      { intros Hi. clear - Hn Hzi Hi. revert Hn Hzi. generalize (ids_in pre). induction l as [|y l IH]; intros Hn []; inversion Hn as [|? ? Hy Hn']; subst.
        - apply Hy. apply in_or_app. now right.
        - now apply IH. }
      destruct Hdx as [(g & i & (idg & G1 & G2) & G3) G4 G5 G6]. split.
      * exists g, i. split; [exists idg; rewrite groups_app; split; [apply in_or_app; now left|exact G2]|].
        intros name v. rewrite G3, last_column_snoc. split; [intros H; right; split; [|exact H]; intros a E; now apply Hcc in E|intros [(a & E & _)|[_ H]]; [now apply Hcc in E|exact H]].
      * rewrite G4. split; intros (d & g' & cl & ids' & gs' & j & A & B & C & D); exists d, g', cl, ids', gs', j.
        -- split; [apply in_or_app; now left|auto].
        -- apply in_app_or in A. destruct A as [A|[<-|[]]]; [auto|]. exfalso. rewrite Ec in B. injection B as <- <- <- -> <-.
           apply Hzn. eapply nth_error_In; eauto.
      * exact G5.
      * rewrite G6, links_app, Hlc, app_nil_r, Hid. apply map_ext_in. intros y Hy. symmetry. apply address_app.
        apply kids_In in Hy. apply links_In in Hy. exact (proj1 Hy).
    + rewrite nth_error_app2 in Hk by exact Hge. set (j := k - length (ids_in pre)) in *.
      assert (Hj : j < length ids) by (apply nth_error_Some; congruence).
      exists (Inst class [] (svc && Byte.eqb (nth j gs x00) x01) [] []). split.
      { cbn [hget]. rewrite nth_error_app2 by lia. rewrite H2. fold j. now apply mk_insts_nth. }
      assert (Hzi : In z ids) by (eapply nth_error_In; eauto).
      assert (Hzn : ~ In z (ids_in pre)).
      { intros Hi. clear - Hn Hzi Hi. revert Hn Hi. generalize (ids_in pre). induction l as [|y l IH]; intros Hn []; inversion Hn as [|? ? Hy Hn']; subst.
        - apply Hy. apply in_or_app. now right.
        - now apply IH. }
      assert (Hni : NoDup ids) by (clear - Hn; revert Hn; generalize (ids_in pre); induction l as [|y l IH]; intros Hn; [exact Hn|inversion Hn; auto]).
      split; cbn [i_class i_props i_service i_ref i_children].
      * exists id, j. split; [exists ids; rewrite groups_app, Hgc; split; [apply in_or_app; right; now left|exact Hk]|].
        intros name v. split; [discriminate|]. intros H. now apply Hnocol in H.
      * split.
        -- intros E. apply andb_prop in E. destruct E as [-> E]. exists c, id, class, ids, gs, j.
           split; [apply in_or_app; right; now left|]. split; [exact Ec|]. split; [exact Hk|].
           cbn [andb] in Hgs. apply negb_false_iff, Nat.eqb_eq in Hgs.
           destruct (nth_error gs j) as [b|] eqn:Eb; [|apply nth_error_None in Eb; lia].
           rewrite (nth_error_nth gs j x00 Eb) in E. apply Byte.byte_dec_bl in E. now subst b.
        -- intros (d & g' & cl & ids' & gs' & j' & A & B & C & D). apply in_app_or in A. destruct A as [A|[<-|[]]].
           ++ exfalso. apply Hzn. unfold ids_in. apply in_flat_map. exists (Group g' cl ids'). split; [|eapply nth_error_In; eauto].
              apply in_flat_map. exists d. split; [exact A|]. rewrite B. now left.
           ++ rewrite Ec in B. injection B as <- <- <- -> <-.
              assert (j' = j) as -> by (eapply (proj1 (NoDup_nth_error ids) Hni); [apply nth_error_Some; congruence|congruence]).
              rewrite (nth_error_nth gs j x00 D). reflexivity.
      * reflexivity.
      * rewrite links_app, Hlc, app_nil_r, kids_none; [reflexivity|]. intros cp Hcp E. apply links_In in Hcp. destruct Hcp as [_ [Hcp|Hcp]].
        -- rewrite Hcp in E. subst z. apply (bound_nil _ _ Hb). exact Hzi.
        -- rewrite E in Hcp. now apply Hzn.
  - rewrite H7, links_app, Hlc, app_nil_r. apply map_ext_in. intros y Hy. symmetry. apply address_app.
    apply kids_In in Hy. apply links_In in Hy. exact (proj1 Hy).
  - rewrite strings_same; [exact H8|]. unfold strings_in. cbn. now rewrite Ec.
  - rewrite meta_same; [exact H9|]. unfold metadata_in. cbn. now rewrite Ec.
Qed.

(** PROP *)
Lemma reads_fun q2m ids ss a i v w : reads q2m ids ss a i v -> reads q2m ids ss a i w -> v = w.
Proof.
  intros H1 H2. destruct H1; inversion H2; subst; try congruence;
    try (match goal with H : nth_error ?vs ?i = Some ?b, H' : nth_error ?vs ?i = Some ?b' |- _ => rewrite H in H'; injection H' as <-; cbn in *; congruence end).
Qed.
Lemma NoDup_flat_one {A B} (f : A -> list B) : forall l x, NoDup (flat_map f l) -> In x l -> NoDup (f x).
Proof.
  induction l as [|a l IH]; intros x H []; cbn [flat_map] in H.
  - subst. clear IH. revert H. generalize (f x). induction l0 as [|b m IH]; intros H; [constructor|]. inversion H as [|? ? Hb H']; subst.
    constructor; [intros Hi; apply Hb; apply in_or_app; now left|now apply IH].
  - apply IH; [|assumption]. clear IH. revert H. generalize (f a). induction l0 as [|b m IH]; intros H; [exact H|]. inversion H; auto.
Qed.
Lemma NoDup_flat_same {A B} (f : A -> list B) : forall l x y b, NoDup (flat_map f l) -> In x l -> In y l -> In b (f x) -> In b (f y) -> x = y.
Proof.
  induction l as [|a l IH]; intros x y b H Hx Hy Bx By; [contradiction|]. cbn [flat_map] in H.
  assert (Hd : forall z, In z l -> In b (f a) -> In b (f z) -> False).
  { intros z Hz Ba Bz. assert (Hf : In b (flat_map f l)) by (apply in_flat_map; eauto). clear - H Ba Hf.
    revert H Ba. generalize (f a). induction l0 as [|c m IH]; intros H Ba; [contradiction|]. cbn [app] in H. inversion H as [|? ? Hc H']; subst.
    destruct Ba as [->|Ba]; [apply Hc; apply in_or_app; now right|auto]. }
  assert (Hn : NoDup (flat_map f l)) by (clear - H; revert H; generalize (f a); induction l0 as [|c m IH]; intros H; [exact H|inversion H; auto]).
  destruct Hx as [->|Hx], Hy as [->|Hy]; auto.
  - exfalso. eapply Hd; eauto.
  - exfalso. eapply Hd; eauto.
  - eapply IH; eauto.
Qed.
Lemma group_of_prop q2m f pre c post s id name a pos ids :
  file_model f -> fm_chunks f = pre ++ c :: post -> ch_payload c = PProp id name a -> after q2m f pre s ->
  group_get (fm_groups f) id = Some (pos, ids) -> exists class, In (Group id class ids) (groups_in pre).
Proof.
  intros Hf Ef Ec Ha Hg. destruct (fi_prop f Hf pre c post id name a Ef Ec) as (n & Hn & _).
  apply group_len_in in Hn. destruct Hn as (class & ids' & Hin). exists class.
  destruct (group_at _ _ Hin) as (p & d & svc & gs & Hd & Ed). cbn in Ed.
  rewrite (af_pos _ _ _ _ Ha _ _ _ _ _ _ _ Hd Ed) in Hg. injection Hg as _ <-. exact Hin.
Qed.
Lemma group_unique q2m f pre s id class class' ids ids' : after q2m f pre s ->
  In (Group id class ids) (groups_in pre) -> In (Group id class' ids') (groups_in pre) -> class = class' /\ ids = ids'.
Proof.
  intros Ha H1 H2. destruct (group_at _ _ H1) as (p & d & svc & gs & Hd & Ed). destruct (group_at _ _ H2) as (p' & d' & svc' & gs' & Hd' & Ed').
  cbn in *. pose proof (af_pos _ _ _ _ Ha _ _ _ _ _ _ _ Hd Ed) as E. rewrite (af_pos _ _ _ _ Ha _ _ _ _ _ _ _ Hd' Ed') in E. injection E as -> ->.
  rewrite Hd in Hd'. injection Hd' as ->. rewrite Ed in Ed'. injection Ed' as -> _ _. auto.
Qed.
Lemma ids_sub (pre : list chunk) id class ids z : In (Group id class ids) (groups_in pre) -> In z ids -> In z (ids_in pre).
Proof. intros H Hz. unfold ids_in. apply in_flat_map. exists (Group id class ids). auto. Qed.
Lemma lookup_hget q2m f pre s z : after q2m f pre s -> In z (ids_in pre) -> exists x, hget (k_heap s) (lget (k_look s) z) = Some x.
Proof.
  intros Ha Hz. apply In_nth_error in Hz. destruct Hz as [k Hk]. rewrite (lget_nth _ _ _ _ (af_look _ _ _ _ Ha) Hk).
  destruct (af_inst _ _ _ _ Ha k z Hk) as (x & Hx & _). eauto.
Qed.
Lemma after_prop q2m f pre c post s id name a pos ids h :
  file_model f -> fm_chunks f = pre ++ c :: post -> ch_payload c = PProp id name (Some a) -> after q2m f pre s ->
  group_get (fm_groups f) id = Some (pos, ids) -> arr_len a = length ids ->
  dec_props q2m (k_look s) (k_shared s) name a 0 ids (k_heap s) = OK h ->
  after q2m f (pre ++ [c]) (Dcs h (k_look s) (k_root s) (k_meta s) (k_shared s) (k_warns s)).
Proof.
  intros Hf Ef Ec Ha Hg Hal Hd. destruct (group_of_prop _ _ _ _ _ _ _ _ _ _ _ Hf Ef Ec Ha Hg) as [class Hin].
  pose proof Ha as [H1 H2 H3 H4 H5 H6 H7 H8 H9].
  destruct (dec_props_inv _ _ _ _ _ _ _ _ _ Hd) as (Hlen & vs & Hvl & Hv & Hget).
  assert (Hni : NoDup ids) by (exact (NoDup_flat_one gr_ids (groups_in pre) (Group id class ids) H3 Hin)).
  assert (Hinj : forall y z, In y ids -> In z ids -> lget (k_look s) y = lget (k_look s) z -> y = z).
  { intros y z Hy Hz E. pose proof (ids_sub _ _ _ _ _ Hin Hy) as Iy. pose proof (ids_sub _ _ _ _ _ Hin Hz) as Iz.
    apply In_nth_error in Iy. apply In_nth_error in Iz. destruct Iy as [ky Ky], Iz as [kz Kz].
    rewrite (lget_nth _ _ _ _ H1 Ky), (lget_nth _ _ _ _ H1 Kz) in E. injection E as ->. congruence. }
  assert (Hnm : NoDup (map (lget (k_look s)) ids)).
  { clear - Hni Hinj. induction ids as [|y ids IH]; cbn [map]; [constructor|]. inversion Hni as [|? ? Hy Hn]; subst. constructor.
    - intros Hi. apply in_map_iff in Hi. destruct Hi as (z & E & Hz). apply Hy. rewrite (Hinj y z); [exact Hz|now left|now right|congruence].
    - apply IH; [exact Hn|]. intros; apply Hinj; try (now right); assumption. }
  destruct (dec_props_spec q2m (k_look s) (k_shared s) name a ids vs 0 (k_heap s) Hvl Hv Hnm Hget) as (h' & Ed & Hl' & Hs).
  rewrite Hd in Ed. injection Ed as <-.
  assert (Hidc : ids_in [c] = []) by (unfold ids_in, groups_in; cbn; now rewrite Ec).
  assert (Hid : ids_in (pre ++ [c]) = ids_in pre) by now rewrite ids_app, Hidc, app_nil_r.
  assert (Hgc : groups_in (pre ++ [c]) = groups_in pre) by (rewrite groups_app; unfold groups_in at 2; cbn; now rewrite Ec, app_nil_r).
  assert (Hlc : links_of [] (pre ++ [c]) = links_of [] pre) by (rewrite links_app; cbn [links_of]; now rewrite Ec, app_nil_r).
  pose proof (bound_nil _ _ H4) as Hnil.
  split; cbn [k_heap k_look k_root k_meta k_shared]; rewrite ?Hid, ?Hlc; auto.
  - lia.
  - intros p d id' class' ids' svc' gs' Hd' Ed'. destruct (Nat.lt_ge_cases p (length pre)) as [Hp|Hp].
    + rewrite nth_error_app1 in Hd' by exact Hp. eapply H5; eauto.
    + rewrite nth_error_app2 in Hd' by exact Hp. destruct (p - length pre) as [|m] eqn:Em; [|destruct m; discriminate].
      injection Hd' as <-. congruence.
  - intros k z Hk. destruct (H6 k z Hk) as (x & Hx & Hdx). destruct (Hs (S k) x Hx) as [Hs1 Hs2].
    destruct Hdx as [(g & i & (idg & G1 & G2) & G3) G4 G5 G6].
    assert (Hrest : forall x', i_class x' = i_class x -> i_service x' = i_service x -> i_ref x' = i_ref x -> i_children x' = i_children x ->
      (forall name0 v, mfind (i_props x') name0 = Some v <-> last_column q2m (pre ++ [c]) g name0 i v) -> described q2m (pre ++ [c]) z x').
    { intros x' E1 E2 E3 E4 E5. split.
      - exists g, i. split; [exists idg; rewrite Hgc, E1; auto|exact E5].
      - rewrite E2, G4. split; intros (d & g' & cl & ids' & gs' & j & A & B & C & D); exists d, g', cl, ids', gs', j.
        + split; [apply in_or_app; now left|auto].
        + apply in_app_or in A. destruct A as [A|[<-|[]]]; [auto|]. rewrite Ec in B. discriminate.
      - congruence.
      - now rewrite Hid, Hlc, E4. }
    destruct (Z.eq_dec g id) as [->|Hgid].
    + destruct (group_unique _ _ _ _ _ _ _ _ _ Ha Hin G1) as [_ <-].
      destruct (nth_error vs i) as [v|] eqn:Ev; [|apply nth_error_None in Ev; assert (i < length ids) by (apply nth_error_Some; congruence); lia].
      exists (set_props x (mset (i_props x) name v)). split; [eapply Hs1; eauto; eapply lget_nth; eauto|].
      apply Hrest; try reflexivity. intros name0 w. cbn [set_props i_props]. rewrite mfind_mset, last_column_snoc, Ec.
      pose proof (dec_value_reads q2m _ _ (k_shared s) a i v H1 H3 Hnil (Hv i v Ev)) as Hrd. rewrite H8 in Hrd.
      destruct (beqb_spec name name0) as [<-|Hne].
      * split.
        -- intros [= <-]. left. exists a. auto.
        -- intros [(a' & E & Hr)|[Hno _]]; [|exfalso; now apply (Hno a)]. injection E as <-. f_equal. eapply reads_fun; eauto.
      * rewrite G3. split; [intros H; right; split; [intros a' E; injection E; congruence|exact H]|].
        intros [(a' & E & _)|[_ H]]; [injection E; congruence|exact H].
    + exists x. split.
      * apply Hs2. intros y Hy E. apply Hgid.
        assert (y = z) as ->.
        { pose proof (ids_sub _ _ _ _ _ Hin Hy) as Iy. apply In_nth_error in Iy. destruct Iy as [ky Ky].
          rewrite (lget_nth _ _ _ _ H1 Ky) in E. injection E as ->. congruence. }
        assert (E' : Group g (i_class x) idg = Group id class ids).
        { eapply (NoDup_flat_same gr_ids (groups_in pre)); eauto. cbn. eapply nth_error_In; eauto. }
        congruence.
      * apply Hrest; try reflexivity. intros name0 v. rewrite G3, last_column_snoc, Ec.
        split; [intros H; right; split; [intros a' E; injection E; congruence|exact H]|].
        intros [(a' & E & _)|[_ H]]; [injection E; congruence|exact H].
  - rewrite strings_same; [exact H8|]. unfold strings_in. cbn. now rewrite Ec.
  - rewrite meta_same; [exact H9|]. unfold metadata_in. cbn. now rewrite Ec.
Qed.

(** PRNT *)
Lemma after_links q2m f pre c s v ch ps h rt ws : ch_payload c = PPrnt v ch ps -> after q2m f pre s ->
  dec_links (length pre) (fm_instCount f) (k_look s) 0 (combine ch ps) (k_heap s) (k_root s) (k_warns s) = OK (h, rt, ws) ->
  after q2m f (pre ++ [c]) (Dcs h (k_look s) rt (k_meta s) (k_shared s) ws) /\
  Forall (fun cp => out_of_bounds (fst cp) (fm_instCount f) = false) (combine ch ps).
Proof.
  intros Ec Ha Hd. pose proof Ha as [H1 H2 H3 H4 H5 H6 H7 H8 H9]. pose proof (bound_nil _ _ H4) as Hnil.
  destruct (dec_links_filter _ _ _ _ H1 H3 Hnil _ _ _ _ _ _ _ _ H2 Hd) as (Hb & Hl & Hrt & Hh). split; [|exact Hb].
  assert (Hidc : ids_in [c] = []) by (unfold ids_in, groups_in; cbn; now rewrite Ec).
  assert (Hid : ids_in (pre ++ [c]) = ids_in pre) by now rewrite ids_app, Hidc, app_nil_r.
  assert (Hgc : groups_in (pre ++ [c]) = groups_in pre) by (rewrite groups_app; unfold groups_in at 2; cbn; now rewrite Ec, app_nil_r).
  assert (Hlc : links_of [] (pre ++ [c]) = links_of [] pre ++ filter (counts (ids_in pre)) (combine ch ps)).
  { rewrite links_app. cbn [links_of app]. now rewrite Ec, app_nil_r. }
  split; cbn [k_heap k_look k_root k_meta k_shared]; rewrite ?Hid, ?Hlc, ?kids_app; auto.
  - lia.
  - intros p d id' class' ids' svc' gs' Hd' Ed'. destruct (Nat.lt_ge_cases p (length pre)) as [Hp|Hp].
    + rewrite nth_error_app1 in Hd' by exact Hp. eapply H5; eauto.
    + rewrite nth_error_app2 in Hd' by exact Hp. destruct (p - length pre) as [|m] eqn:Em; [|destruct m; discriminate].
      injection Hd' as <-. congruence.
  - intros k z Hk. destruct (H6 k z Hk) as (x & Hx & Hdx). rewrite (Hh k z x Hk Hx). eexists. split; [reflexivity|].
    destruct Hdx as [(g & i & (idg & G1 & G2) & G3) G4 G5 G6]. split; cbn [set_children i_class i_props i_service i_ref i_children].
    + exists g, i. split; [exists idg; rewrite Hgc; auto|]. intros name w. rewrite G3, last_column_snoc, Ec.
      split; [intros H; right; split; [discriminate|exact H]|]. intros [(a' & E & _)|[_ H]]; [discriminate|exact H].
    + rewrite G4. split; intros (d & g' & cl & ids' & gs' & j & A & B & C & D); exists d, g', cl, ids', gs', j.
      * split; [apply in_or_app; now left|auto].
      * apply in_app_or in A. destruct A as [A|[<-|[]]]; [auto|]. rewrite Ec in B. discriminate.
    + exact G5.
    + now rewrite Hid, Hlc, kids_app, map_app, G6.
  - now rewrite map_app, Hrt, H7.
  - rewrite strings_same; [exact H8|]. unfold strings_in. cbn. now rewrite Ec.
  - rewrite meta_same; [exact H9|]. unfold metadata_in. cbn. now rewrite Ec.
Qed.

(** ** All chunks *)
Lemma bounds_below z n : out_of_bounds z n = false <-> below n z.
Proof.
  unfold out_of_bounds, below. rewrite orb_false_iff, Z.ltb_ge, N.leb_gt. split; intros H; lia.
Qed.
Lemma NoDup_flat_pos {A B} (f : A -> list B) : forall l p q a b x, NoDup (flat_map f l) ->
  nth_error l p = Some a -> nth_error l q = Some b -> In x (f a) -> In x (f b) -> p = q.
Proof.
  induction l as [|c l IH]; intros p q a b x H Hp Hq Ha Hb; [destruct p; discriminate|]. cbn [flat_map] in H.
  assert (Hd : forall z, In z l -> In x (f c) -> In x (f z) -> False).
  { intros z Hz Ba Bz. assert (Hf : In x (flat_map f l)) by (apply in_flat_map; eauto). clear - H Ba Hf.
    revert H Ba. generalize (f c). induction l0 as [|d m IH]; intros H Ba; [contradiction|]. cbn [app] in H. inversion H as [|? ? Hc H']; subst.
    destruct Ba as [->|Ba]; [apply Hc; apply in_or_app; now right|auto]. }
  assert (Hn : NoDup (flat_map f l)) by (clear - H; revert H; generalize (f c); induction l0 as [|d m IH]; intros H; [exact H|inversion H; auto]).
  destruct p as [|p], q as [|q]; cbn in Hp, Hq; [reflexivity| | |f_equal; eapply IH; eauto].
  - injection Hp as ->. exfalso. apply nth_error_In in Hq. eauto.
  - injection Hq as ->. exfalso. apply nth_error_In in Hp. eauto.
Qed.
Lemma grow_all_some : forall cs g i id, (exists class ids, In (Group id class ids) (groups_in cs)) \/ (exists r, group_get g id = Some r) ->
  exists r, group_get (grow_all g i cs) id = Some r.
Proof.
  induction cs as [|c cs IH]; intros g i id H; cbn [grow_all].
  - destruct H as [(class & ids & [])|H]; exact H.
  - apply IH. unfold groups_in in H. cbn [flat_map] in H.
    destruct (ch_payload c); cbn [grow group_set group_get app] in *; try exact H.
    destruct (Z.eqb_spec classID id) as [->|Hne]; [right; eauto|].
    destruct H as [(class & ids' & [E|H])|H]; [injection E; congruence|left; eauto|now right].
Qed.

Definition ok_so_far (f : fmodel) (c : chunk) : Prop :=
  match ch_payload c with
  | PInst id _ ids svc gs => below (fm_classCount f) id /\ (svc = true -> length gs = length ids)
  | PProp id _ a => below (fm_classCount f) id
  | PPrnt v ch ps => v = 0%N /\ length ch = length ps /\ Forall (below (fm_instCount f)) ch
  | _ => True
  end.
Lemma step_after q2m f pre c post s s' :
  file_model f -> fm_chunks f = pre ++ c :: post -> is_end c = false -> after q2m f pre s ->
  dec_chunk q2m f (length pre) (ch_payload c) s = OK s' -> after q2m f (pre ++ [c]) s' /\ ok_so_far f c.
Proof.
  intros Hf Ef He Ha H. unfold ok_so_far. unfold is_end in He. destruct (ch_payload c) eqn:Ec; cbn [dec_chunk] in H; try discriminate He.
  - (* META *) injection H as <-. split; [|exact I]. eapply after_silent; try exact Ha; try reflexivity;
      try (unfold groups_in, columns_in, strings_in, metadata_in; cbn; now rewrite Ec).
    + cbn [k_shared]. rewrite strings_same; [apply Ha|unfold strings_in; cbn; now rewrite Ec].
    + cbn [k_meta]. rewrite (af_meta _ _ _ _ Ha). unfold metadata_in at 2. rewrite flat_map_app, concat_app, fold_left_app. cbn. rewrite Ec. cbn. now rewrite app_nil_r.
  - (* SSTR *) injection H as <-. split; [|exact I]. eapply after_silent; try exact Ha; try reflexivity;
      try (unfold groups_in, columns_in, strings_in, metadata_in; cbn; now rewrite Ec).
    + cbn [k_shared]. unfold last_strings. rewrite strings_app. unfold strings_in at 2. cbn. rewrite Ec. cbn. now rewrite last_last.
    + cbn [k_meta]. rewrite (af_meta _ _ _ _ Ha), meta_same; [reflexivity|unfold metadata_in; cbn; now rewrite Ec].
  - (* INST *)
    destruct (out_of_bounds classID (fm_classCount f)) eqn:Eb; [discriminate|].
    destruct (isService && negb (length ids =? length getService)%nat) eqn:Es; [discriminate|].
    destruct (dec_insts _ _ _ _ _ _ _) as [[h lk]|e| |] eqn:Ed; try discriminate.
    destruct (group_get (fm_groups f) classID) as [[pos r]|] eqn:Eg; [|discriminate].
    destruct (Nat.eqb_spec pos (length pre)) as [->|]; [|discriminate]. injection H as <-. split.
    + eapply after_inst; eauto.
    + split; [now apply bounds_below|]. intros ->. cbn in Es. apply negb_false_iff, Nat.eqb_eq in Es. congruence.
  - (* PROP *)
    destruct (out_of_bounds classID (fm_classCount f)) eqn:Eb; [discriminate|]. apply bounds_below in Eb.
    destruct (fi_prop f Hf pre c post _ _ _ Ef Ec) as (n & Hn & _). apply group_len_in in Hn. destruct Hn as (cl & ids & Hn).
    destruct (group_get (fm_groups f) classID) as [[pos r]|] eqn:Eg.
    2:{ exfalso. destruct (group_at _ _ Hn) as (p & d & svc & gs & Hd & Ed). cbn in Ed.
        rewrite (af_pos _ _ _ _ Ha _ _ _ _ _ _ _ Hd Ed) in Eg. discriminate. }
    destruct props as [a|].
    + destruct (Nat.eqb_spec (arr_len a) (length r)) as [El|]; [|discriminate]. cbn [negb] in H.
      destruct (dec_props _ _ _ _ _ _ _ _) eqn:Ed; try discriminate. injection H as <-. split; [|exact Eb]. eapply after_prop; eauto.
    + injection H as <-. split; [|exact Eb].
      destruct Ha as [H1 H2 H3 H4 H5 H6 H7 H8 H9].
      assert (Hidc : ids_in [c] = []) by (unfold ids_in, groups_in; cbn; now rewrite Ec).
      assert (Hid : ids_in (pre ++ [c]) = ids_in pre) by now rewrite ids_app, Hidc, app_nil_r.
      assert (Hgc : groups_in (pre ++ [c]) = groups_in pre) by (rewrite groups_app; unfold groups_in at 2; cbn; now rewrite Ec, app_nil_r).
      assert (Hlc : links_of [] (pre ++ [c]) = links_of [] pre) by (rewrite links_app; cbn [links_of]; now rewrite Ec, app_nil_r).
      split; cbn [cwarn_add k_heap k_look k_root k_meta k_shared]; rewrite ?Hid, ?Hlc; auto.
      * intros p d id' class' ids' svc' gs' Hd' Ed'. destruct (Nat.lt_ge_cases p (length pre)) as [Hp|Hp].
        -- rewrite nth_error_app1 in Hd' by exact Hp. eapply H5; eauto.
        -- rewrite nth_error_app2 in Hd' by exact Hp. destruct (p - length pre) as [|m] eqn:Em; [|destruct m; discriminate].
           injection Hd' as <-. congruence.
      * intros k z Hk. destruct (H6 k z Hk) as (x & Hx & [(g & i & (idg & G1 & G2) & G3) G4 G5 G6]). exists x. split; [exact Hx|]. split.
        -- exists g, i. split; [exists idg; rewrite Hgc; auto|]. intros name0 w. rewrite G3, last_column_snoc, Ec.
           split; [intros H; right; split; [discriminate|exact H]|]. intros [(a' & E & _)|[_ H]]; [discriminate|exact H].
        -- rewrite G4. split; intros (d & g' & cl' & ids' & gs' & j & A & B & C & D); exists d, g', cl', ids', gs', j.
           ++ split; [apply in_or_app; now left|auto].
           ++ apply in_app_or in A. destruct A as [A|[<-|[]]]; [auto|]. rewrite Ec in B. discriminate.
        -- exact G5.
        -- now rewrite Hid, Hlc.
      * rewrite strings_same; [exact H8|]. unfold strings_in. cbn. now rewrite Ec.
      * rewrite meta_same; [exact H9|]. unfold metadata_in. cbn. now rewrite Ec.
  - (* PRNT *)
    destruct (N.eqb_spec version 0) as [->|]; [|discriminate]. cbn [negb] in H.
    destruct (Nat.eqb_spec (length parents) (length children)) as [El|]; [|discriminate]. cbn [negb] in H.
    destruct (dec_links _ _ _ _ _ _ _ _) as [[[h rt] ws]|[e ws]| |] eqn:Ed; try discriminate. injection H as <-.
    destruct (after_links _ _ _ _ _ _ _ _ _ _ _ Ec Ha Ed) as [HA HB]. split; [exact HA|]. split; [reflexivity|]. split; [congruence|].
    rewrite Forall_forall in HB |- *. intros z Hz. apply bounds_below.
    assert (Hc : exists y, In (z, y) (combine children parents)).
    { apply In_nth_error in Hz. destruct Hz as [k Hk]. assert (k < length children) by (apply nth_error_Some; congruence).
      destruct (nth_error parents k) as [y|] eqn:Ey; [|apply nth_error_None in Ey; lia]. exists y.
      apply nth_error_In with k. clear - Hk Ey. revert parents k Hk Ey. induction children as [|a l IH]; intros [|b m] [|k] Hk Ey; try discriminate; cbn in *; [congruence|auto]. }
    destruct Hc as [y Hy]. exact (HB _ Hy).
  - injection H as <-. split; [|exact I]. eapply after_silent; try exact Ha; try reflexivity;
      try (unfold groups_in, columns_in; cbn; now rewrite Ec).
    + rewrite strings_same; [apply Ha|unfold strings_in; cbn; now rewrite Ec].
    + rewrite (af_meta _ _ _ _ Ha), meta_same; [reflexivity|unfold metadata_in; cbn; now rewrite Ec].
  - injection H as <-. split; [|exact I]. eapply after_silent; try exact Ha; try reflexivity;
      try (unfold groups_in, columns_in; cbn; now rewrite Ec).
    + rewrite strings_same; [apply Ha|unfold strings_in; cbn; now rewrite Ec].
    + rewrite (af_meta _ _ _ _ Ha), meta_same; [reflexivity|unfold metadata_in; cbn; now rewrite Ec].
Qed.

(** When a chunk is not accepted. *)
Lemma step_safe q2m f pre c post s :
  file_model f -> fm_chunks f = pre ++ c :: post -> is_end c = false -> after q2m f pre s ->
  dec_chunk q2m f (length pre) (ch_payload c) s <> Hang /\
  (dec_chunk q2m f (length pre) (ch_payload c) s = Panic -> exists g name a, ch_payload c = PProp g name (Some a) /\ unreadable a).
Proof.
  intros Hf Ef He Ha. destruct (ch_payload c) eqn:Ec; cbn [dec_chunk]; try (split; [discriminate|intros H; discriminate H]).
  - destruct (out_of_bounds _ _); [split; [discriminate|intros H; discriminate H]|].
    destruct (isService && _); [split; [discriminate|intros H; discriminate H]|].
    assert (Hs : forall ids gs h lk, dec_insts (fm_instCount f) className isService gs ids h lk <> Panic /\ dec_insts (fm_instCount f) className isService gs ids h lk <> Hang).
    { induction ids0 as [|z l IH]; intros gs h lk; cbn [dec_insts]; [split; discriminate|].
      destruct (out_of_bounds _ _); [split; discriminate|]. destruct (lfind lk z); [split; discriminate|apply IH]. }
    destruct (Hs ids getService (k_heap s) (k_look s)) as [S1 S2].
    destruct (dec_insts _ _ _ _ _ _ _) as [[h lk]|e| |]; try contradiction; [|split; [discriminate|intros H; discriminate H]].
    destruct (group_get _ _) as [[pos r]|]; [destruct (_ =? _)%nat|]; (split; [discriminate|intros H; discriminate H]).
  - destruct (out_of_bounds _ _); [split; [discriminate|intros H; discriminate H]|].
    destruct (group_get (fm_groups f) classID) as [[pos r]|] eqn:Eg; [|split; [discriminate|intros H; discriminate H]].
    destruct props as [a|]; [|split; [discriminate|intros H; discriminate H]].
    destruct (Nat.eqb_spec (arr_len a) (length r)) as [El|]; [|split; [discriminate|intros H; discriminate H]]. cbn [negb].
    destruct (group_of_prop _ _ _ _ _ _ _ _ _ _ _ Hf Ef Ec Ha Eg) as [class Hin].
    destruct (fi_prop f Hf pre c post _ _ _ Ef Ec) as (n & _ & Hn). destruct (Hn a eq_refl) as [Hw _].
    destruct (dec_props_cases q2m (k_look s) (k_shared s) name a Hw r 0 (k_heap s)) as [[h ->]|[-> Hu]]; [cbn; congruence| | |].
    + intros z Hz. eapply lookup_hget; [exact Ha|]. eapply ids_sub; eauto.
    + split; [discriminate|intros H; discriminate H].
    + split; [discriminate|]. intros _. eauto.
  - destruct (negb _); [split; [discriminate|intros H; discriminate H]|]. destruct (negb _); [split; [discriminate|intros H; discriminate H]|].
    destruct (dec_links_safe (length pre) (fm_instCount f) (k_look s) (ids_in pre) (af_look _ _ _ _ Ha) (combine children parents) 0 (k_heap s) (k_root s) (k_warns s) (af_len _ _ _ _ Ha)) as [S1 S2].
    destruct (dec_links _ _ _ _ _ _ _ _) as [[[h rt] ws]|[e ws]| |]; try contradiction; (split; [discriminate|intros H; discriminate H]).
Qed.
(** When it is. *)
Lemma combine_fst {A B} (l : list A) (m : list B) (P : A -> Prop) : Forall P l -> Forall (fun ab => P (fst ab)) (combine l m).
Proof. rewrite !Forall_forall. intros H [a b] Hi. apply in_combine_l in Hi. auto. Qed.
Lemma dec_links_accepts ic bound lk ids : lookup_ok lk ids -> forall l i h rt ws, length h = length ids ->
  Forall (fun cp => out_of_bounds (fst cp) bound = false) l -> exists r, dec_links ic bound lk i l h rt ws = OK r.
Proof.
  intros Hl. induction l as [|[c p] l IH]; intros i h rt ws Hh Hb; [cbn; eauto|]. inversion Hb as [|? ? H1 H2]; subst. cbn [fst] in H1.
  pose proof (dec_links_safe ic bound lk ids Hl ((c, p) :: l) i h rt ws Hh) as [S1 S2]. cbn [dec_links] in *. rewrite H1 in *.
  destruct (lget lk c =? 0)%nat; [now apply IH|]. destruct (p =? nilInstance)%Z; [now apply IH|].
  destruct (lfind lk p); [|now apply IH]. destruct (hget h p0); [|now contradiction S1]. apply IH; [now rewrite hset_length|exact H2].
Qed.
Lemma step_accepts q2m f pre c post s :
  file_model f -> consistent f -> fm_chunks f = pre ++ c :: post -> is_end c = false -> after q2m f pre s ->
  (forall g name a, ch_payload c = PProp g name (Some a) -> ~ unreadable a) ->
  exists s', dec_chunk q2m f (length pre) (ch_payload c) s = OK s'.
Proof.
  intros Hf Hc Ef He Ha Hu. assert (Hin : In c (fm_chunks f)) by (rewrite Ef; apply in_or_app; right; now left).
  destruct (step_safe q2m f pre c post s Hf Ef He Ha) as [S1 S2].
  destruct (ch_payload c) eqn:Ec; cbn [dec_chunk] in *; try (eexists; reflexivity).
  - assert (Hg : In (Group classID className ids) (groups_in (fm_chunks f))) by (apply in_flat_map; exists c; split; [exact Hin|rewrite Ec; now left]).
    pose proof (co_class f Hc) as Hb. rewrite Forall_forall in Hb. specialize (Hb classID). rewrite <- bounds_below in Hb.
    assert (Hb' : out_of_bounds classID (fm_classCount f) = false) by (apply Hb; apply in_map_iff; exists (Group classID className ids); auto).
    clear Hb. rewrite Hb' in *.
    assert (Es : isService && negb (length ids =? length getService)%nat = false).
    { destruct isService; [|reflexivity]. cbn. rewrite (co_flags f Hc _ _ _ _ _ Hin Ec), Nat.eqb_refl. reflexivity. }
    rewrite Es in *.
    assert (Eids : ids_in (fm_chunks f) = ids_in pre ++ ids ++ ids_in post).
    { rewrite Ef. change (c :: post) with ([c] ++ post). rewrite !ids_app. f_equal. f_equal. unfold ids_in, groups_in. cbn. rewrite Ec. cbn. apply app_nil_r. }
    destruct (dec_insts_spec (fm_instCount f) className isService ids getService (k_heap s) (k_look s) (ids_in pre)) as (lk & Ed & _).
    + apply Ha. + apply Ha.
    + pose proof (co_distinct f Hc) as Hd. rewrite Eids, app_assoc in Hd. clear - Hd. revert Hd. generalize (ids_in pre ++ ids). induction l as [|y l IH]; intros Hd; [constructor|].
      inversion Hd as [|? ? Hy Hd']; subst. constructor; [intros Hi; apply Hy; apply in_or_app; now left|auto].
    + pose proof (co_ids f Hc) as Hd. rewrite Eids, !Forall_app in Hd. destruct Hd as (_ & Hd & _). eapply Forall_impl; [|exact Hd]. intros z. apply bounds_below.
    + rewrite Ed. destruct (grow_all_some (fm_chunks f) [] 0 classID) as [[pos r] Eg]; [left; eauto|]. rewrite (fi_groups f Hf), Eg.
      destruct (grow_all_get _ _ _ _ _ _ Eg) as [Hx|(_ & d & cl & sv & gs' & Hd' & Ed')]; [discriminate|]. rewrite Nat.sub_0_r in Hd'.
      assert (pos = length pre) as ->; [|rewrite Nat.eqb_refl; eauto].
      eapply (NoDup_flat_pos (fun c => map gr_id (groups_in [c])) (fm_chunks f) pos (length pre) d c classID); [| | | |].
      * pose proof (co_classes f Hc) as Hn. unfold groups_in in Hn. rewrite flat_map_concat_map, concat_map, map_map, <- flat_map_concat_map in Hn.
        erewrite flat_map_ext; [exact Hn|]. intros e. unfold groups_in. cbn. now rewrite app_nil_r.
      * exact Hd'.
      * rewrite Ef, nth_error_app2 by lia. now rewrite Nat.sub_diag.
      * unfold groups_in. cbn. rewrite Ed'. now left.
      * unfold groups_in. cbn. rewrite Ec. now left.
  - assert (Hg : In (classID, name, props) (columns_in (fm_chunks f))) by (apply in_flat_map; exists c; split; [exact Hin|rewrite Ec; now left]).
    destruct (co_columns f Hc _ _ _ Hg) as (Hb & class & ids & Hgr & Hlen). apply bounds_below in Hb. rewrite Hb in *.
    destruct (group_get (fm_groups f) classID) as [[pos r]|] eqn:Eg; [|eauto]. destruct props as [a|]; [|eauto].
    destruct (group_of_prop _ _ _ _ _ _ _ _ _ _ _ Hf Ef Ec Ha Eg) as [class' Hin'].
    assert (Hlr : arr_len a = length r).
    { rewrite (Hlen a eq_refl). f_equal. assert (E : Group classID class ids = Group classID class' r).
      { eapply (NoDup_flat_same (fun g => [gr_id g]) (groups_in (fm_chunks f))).
        - pose proof (co_classes f Hc) as Hn. assert (E : forall l, flat_map (fun g => [gr_id g]) l = map gr_id l) by (induction l as [|y l IH]; [reflexivity|cbn; now rewrite IH]).
          rewrite E. exact Hn.
        - exact Hgr.
        - rewrite Ef, groups_app. apply in_or_app. now left.
        - now left.
        - now left. }
      congruence. }
    rewrite Hlr, Nat.eqb_refl in *. cbn [negb] in *.
    destruct (fi_prop f Hf pre c post _ _ _ Ef Ec) as (n & _ & Hn). destruct (Hn a eq_refl) as [Hw _].
    destruct (dec_props_cases q2m (k_look s) (k_shared s) name a Hw r 0 (k_heap s)) as [[h ->]|[_ Hx]]; [cbn; congruence| |eauto|].
    + intros z Hz. eapply lookup_hget; [exact Ha|]. eapply ids_sub; eauto.
    + exfalso. eapply Hu; eauto.
  - destruct (co_links f Hc _ _ _ _ Hin Ec) as (-> & El & Hb). cbn [N.eqb negb]. rewrite El, Nat.eqb_refl. cbn [negb].
    destruct (dec_links_accepts (length pre) (fm_instCount f) (k_look s) (ids_in pre) (af_look _ _ _ _ Ha) (combine children parents) 0 (k_heap s) (k_root s) (k_warns s) (af_len _ _ _ _ Ha)) as [[[h rt] ws] E].
    + apply (combine_fst _ _ (fun z => out_of_bounds z (fm_instCount f) = false)). eapply Forall_impl; [|exact Hb]. intros z. apply bounds_below.
    + rewrite E. eauto.
Qed.

Lemma run_after q2m f : file_model f -> forall body pre post s, fm_chunks f = pre ++ body ++ post -> Forall (fun c => is_end c = false) body -> after q2m f pre s ->
  (forall s', dec_chunk_list q2m f (length pre) body s = OK s' -> after q2m f (pre ++ body) s' /\ Forall (ok_so_far f) body) /\
  dec_chunk_list q2m f (length pre) body s <> Hang /\
  (dec_chunk_list q2m f (length pre) body s = Panic -> exists g name a, In (g, name, Some a) (columns_in body) /\ unreadable a) /\
  (consistent f -> (forall g name a, In (g, name, Some a) (columns_in body) -> ~ unreadable a) -> exists s', dec_chunk_list q2m f (length pre) body s = OK s').
Proof.
  intros Hf. induction body as [|c body IH]; intros pre post s Ef He Ha.
  - cbn [dec_chunk_list]. rewrite app_nil_r. split; [intros s' [= <-]; auto|]. split; [discriminate|]. split; [discriminate|eauto].
  - inversion He as [|? ? He1 He2]; subst. change ((c :: body) ++ post) with (c :: body ++ post) in Ef.
    destruct (step_safe q2m f pre c _ s Hf Ef He1 Ha) as [S1 S2].
    assert (El : dec_chunk_list q2m f (length pre) (c :: body) s = (s <- dec_chunk q2m f (length pre) (ch_payload c) s ;; dec_chunk_list q2m f (S (length pre)) body s)).
    { cbn [dec_chunk_list]. unfold is_end in He1. destruct (ch_payload c); try reflexivity. discriminate. }
    rewrite El. assert (Ecol : forall x, In x (columns_in [c]) \/ In x (columns_in body) <-> In x (columns_in (c :: body))).
    { intros x. change (c :: body) with ([c] ++ body). rewrite columns_app, in_app_iff. reflexivity. }
    assert (Eone : forall g name a, ch_payload c = PProp g name (Some a) -> In (g, name, Some a) (columns_in [c])).
    { intros g name a E. unfold columns_in. cbn. rewrite E. now left. }
    destruct (dec_chunk q2m f (length pre) (ch_payload c) s) as [s1|e| |] eqn:Ed; cbn [obind].
    + destruct (step_after q2m f pre c _ s s1 Hf Ef He1 Ha Ed) as [HA HB].
      destruct (IH (pre ++ [c]) post s1) as (I1 & I2 & I3 & I4); [rewrite <- app_assoc; exact Ef|exact He2|exact HA|].
      rewrite app_length, Nat.add_1_r in *. rewrite <- app_assoc in I1. cbn [app] in I1. split; [|split; [exact I2|split]].
      * intros s' Hs. destruct (I1 s' Hs) as [J1 J2]. split; [exact J1|constructor; auto].
      * intros Hs. destruct (I3 Hs) as (g & name & a & Hin & Hu). exists g, name, a. split; [apply Ecol; now right|exact Hu].
      * intros Hc Hu. apply I4; [exact Hc|]. intros g name a Hin. apply (Hu g name). apply Ecol. now right.
    + split; [discriminate|]. split; [discriminate|]. split; [discriminate|]. intros Hc Hu.
      destruct (step_accepts q2m f pre c _ s Hf Hc Ef He1 Ha) as [s' E]; [|rewrite Ed in E; discriminate].
      intros g name a E. apply (Hu g name). apply Ecol. left. now apply Eone.
    + split; [discriminate|]. split; [discriminate|]. split.
      * intros _. destruct (S2 eq_refl) as (g & name & a & E & Hu). exists g, name, a. split; [apply Ecol; left; now apply Eone|exact Hu].
      * intros Hc Hu. destruct (step_accepts q2m f pre c _ s Hf Hc Ef He1 Ha) as [s' E]; [|rewrite Ed in E; discriminate].
        intros g name a E. apply (Hu g name). apply Ecol. left. now apply Eone.
    + now contradiction S1.
Qed.
Lemma end_silent (c : chunk) : is_end c = true -> groups_in [c] = [] /\ columns_in [c] = [] /\ strings_in [c] = [] /\ metadata_in [c] = [] /\
  (forall k, links_of k [c] = []) /\ ok_so_far (FModel 0 0 0 [] [] []) c.
Proof.
  unfold is_end, groups_in, columns_in, strings_in, metadata_in, ok_so_far. cbn. destruct (ch_payload c); try discriminate. intros _. repeat split.
Qed.
Lemma decode_run q2m f : file_model f ->
  (forall s, dec_chunk_list q2m f 0 (fm_chunks f) k0 = OK s -> after q2m f (fm_chunks f) s /\ Forall (ok_so_far f) (fm_chunks f)) /\
  dec_chunk_list q2m f 0 (fm_chunks f) k0 <> Hang /\
  (dec_chunk_list q2m f 0 (fm_chunks f) k0 = Panic -> exists g name a, In (g, name, Some a) (columns_in (fm_chunks f)) /\ unreadable a) /\
  (consistent f -> (forall g name a, In (g, name, Some a) (columns_in (fm_chunks f)) -> ~ unreadable a) -> exists s, dec_chunk_list q2m f 0 (fm_chunks f) k0 = OK s).
Proof.
  intros Hf. destruct (fi_shape f Hf) as (body & c & E & Hc & Hb).
  destruct (run_after q2m f Hf body [] [c] k0 E Hb (after_nil q2m f)) as (I1 & I2 & I3 & I4). cbn [length app] in *.
  assert (El : dec_chunk_list q2m f 0 (fm_chunks f) k0 = dec_chunk_list q2m f 0 body k0).
  { rewrite E, dec_list_app.
    - destruct (dec_chunk_list q2m f 0 body k0) as [s| | |]; cbn [obind]; try reflexivity. cbn [dec_chunk_list]. unfold is_end in Hc.
      destruct (ch_payload c); try discriminate. reflexivity.
    - intros d content Hd Ed. rewrite Forall_forall in Hb. specialize (Hb d Hd). unfold is_end in Hb. rewrite Ed in Hb. discriminate. }
  rewrite El. destruct (end_silent c Hc) as (E1 & E2 & E3 & E4 & E5 & _).
  assert (Ecol : columns_in (fm_chunks f) = columns_in body) by (now rewrite E, columns_app, E2, app_nil_r). rewrite Ecol.
  split; [|auto]. intros s Hs. destruct (I1 s Hs) as [J1 J2]. rewrite E. split.
  - eapply after_silent; eauto.
    + rewrite strings_same; [apply J1|exact E3].
    + rewrite (af_meta _ _ _ _ J1), meta_same; [reflexivity|exact E4].
  - apply Forall_app. split; [exact J2|]. constructor; [|constructor]. unfold ok_so_far, is_end in *. destruct (ch_payload c); try discriminate. exact I.
Qed.
