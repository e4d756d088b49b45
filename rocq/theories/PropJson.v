(** PropJson.v - properties of the JSON format (C62-). *)
From Coq Require Import Permutation.
From Verif Require Import Base RbxlValues RbxValues Tree RbxlCodec XmlText XmlTextProofs Ieee Json SpecValues SpecTree SpecCodec SpecJson TreeProofs SortProofs
  JsonProofs PropRoot PropTree XmlTreeEnc JsonTree JsonDec.

(** C62: every value that can be written and is not a reference comes back as
    [json_value] says. *)
Theorem C62_values : forall other rnd v s, jsonable v -> (forall q, v <> RReference q) ->
  exists j j', ValueToJSON rnd v s = OK (j, s) /\ marshal j = Some j' /\ ValueFromJSON other j' (rtype v) = OK (json_value v).
Proof. intros other rnd v s. apply value_trip. Qed.

Lemma storable_nodes h nodes : wf_heap h -> json_storable h nodes -> (forall p, In p nodes -> exists x, hget h p = Some x) ->
  Forall (storable_inst h) nodes.
Proof.
  intros Hw HS Hx. apply Forall_forall. intros p Hp. destruct (Hx p Hp) as [x Ex]. assert (HI : inst_in h nodes x) by (exists p; auto).
  destruct (jo_inst _ _ HS x HI) as [U1 U2]. destruct (Hw p x Ex) as [Hn _]. exists x. split; [exact Ex|]. split; [exact U1|]. split; [exact U2|]. split; [exact Hn|].
  apply Forall_forall. intros [name v] Hin. apply In_mfind in Hin; [|exact Hn]. destruct (jo_prop _ _ HS x name v HI Hin) as [V1 V2].
  split; [exact V1|]. split; [exact V2|]. cbn [snd]. intros q -> Hq. exact (jo_target _ _ HS x name q HI Hin Hq).
Qed.
Lemma height_pos t : 1 <= height t.
Proof. destruct t. cbn [height]. lia. Qed.
Definition tall (ts : list rtree) : nat := fold_right (fun t n => Nat.max (height t) n) 1 ts.
Lemma tall_le ts t : In t ts -> height t <= tall ts.
Proof. induction ts as [|t' ts IH]; [intros []|]. intros [->|H]; unfold tall; cbn [fold_right]; [lia|]. specialize (IH H). unfold tall in IH. lia. Qed.
Section Enc.
Variable (other : Z -> Z -> N -> Z) (rnd : nat -> bytes) (ord : ptr -> list (bytes * rvalue) -> list (bytes * rvalue)) (h : heap).
Hypothesis Hrnd : forall k, length (rnd k) = 16.
Hypothesis Hnr : never_repeats (length h) rnd.
Hypothesis Hord : any_order ord.
Lemma root_enc ts fuel r : Forall (tree_at h) ts -> map rroot ts = r_instances r -> tall ts <= fuel -> Forall (storable_inst h) (fnodes ts) ->
  exists d s js, json_Encode rnd ord fuel h r = OK (Some (JObj d), js_heap s) /\ JINV rnd h s /\
    mfind d (str "rbxfile_version") = Some (JNum 0) /\ mfind d (str "instances") = Some (JArr js) /\ Forall2 (inst_json other h (js_refs s)) ts js.
Proof.
  intros Ht Hr Hf Hn.
  destruct (insts_enc other rnd h (InstanceToJSON rnd ord fuel) ts) with (s := Jst h [] 0) as (js & s & E & I & M & js' & F & P).
  - apply Forall_forall. intros t Hin. apply (inst_enc other rnd ord h Hrnd Hnr Hord).
    + pose proof (tall_le ts t Hin). lia.
    + rewrite Forall_forall in Ht. now apply Ht.
    + apply Forall_forall. intros q Hq. rewrite Forall_forall in Hn. apply Hn. apply in_flat_map. eauto.
  - apply JINV_start.
  - unfold json_Encode, RootToJSON. rewrite <- Hr, E. cbn [obind].
    destruct (marshal_fixed [("rbxfile_version", ji 0); ("instances", JArr js)]%string [("rbxfile_version", JNum 0); ("instances", JArr js')]%string) as (d & Ed & _ & Fd).
    + reflexivity.
    + repeat (apply Forall2_cons || apply Forall2_nil); cbn [fst snd]; [reflexivity|now apply marshal_list_ok].
    + reflexivity.
    + exists d, s, js'. rewrite Ed. split; [reflexivity|]. split; [exact I|]. rewrite !Fd. split; [reflexivity|]. split; [reflexivity|exact P].
Qed.
End Enc.
Lemma to_i64_zero other : to_i64 other 0 = 0%Z.
Proof. reflexivity. Qed.

(** C62: instances without children come back: classes, references, services,
    properties, and references among them. *)
Theorem C62_round_trip : forall other rnd ord jord fuel h r,
  (forall k, length (rnd k) = 16) -> never_repeats (length h) rnd -> any_order ord -> any_members jord ->
  wf_heap h -> childless h (r_instances r) -> json_storable h (r_instances r) -> 1 <= fuel ->
  exists doc named phi h', json_Encode rnd ord fuel h r = OK (Some doc, named) /\
    RootFromJSON other jord doc = OK (Some (Root (map phi (r_instances r)) [], h')) /\
    json_image h named (r_instances r) phi h'.
Proof.
  intros other rnd ord jord fuel h r Hrnd Hnr Hord Hjord Hw [Hnd Hx] HS Hf. set (nodes := r_instances r) in *.
  assert (Hx' : forall p, In p nodes -> exists x, hget h p = Some x) by (intros p Hp; destruct (Hx p Hp) as (x & E & _); eauto).
  set (ts := map leaf_of nodes).
  assert (Hts : Forall (tree_at h) ts).
  { apply Forall_forall. intros t Hin. apply in_map_iff in Hin. destruct Hin as (p & <- & Hp). destruct (Hx p Hp) as (x & E & C).
    econstructor; [exact E|exact C|constructor]. }
  assert (Hroots : map rroot ts = nodes) by (unfold ts; rewrite map_map; apply map_id).
  assert (Hfn : fnodes ts = nodes).
  { unfold fnodes, ts. clear. induction nodes as [|p l IH]; [reflexivity|]. cbn [map flat_map rnodes leaf_of]. now rewrite IH. }
  assert (Htall : tall ts <= fuel).
  { replace (tall ts) with 1; [exact Hf|]. unfold tall, ts. clear. induction nodes as [|p l IH]; [reflexivity|]. cbn [map fold_right]. rewrite <- IH. reflexivity. }
  pose proof (storable_nodes h nodes Hw HS Hx') as Hst.
  destruct (root_enc other rnd ord h Hrnd Hnr Hord ts fuel r Hts Hroots Htall ltac:(now rewrite Hfn)) as (d & s & js & E & I & D1 & D2 & P).
  set (m := js_refs s) in *. pose proof I as ((_ & R1 & R2 & _) & _ & _). fold m in R2.
  assert (Hm : forall r q, mfind m r = Some q -> IsEmptyReference r = false) by (intros r0 q H; now destruct (R2 r0 q H) as (_ & H' & _)).
  destruct (read_all other jord h m Hm Hjord nodes [] (Jdst [] [] []) js) as (s' & E' & RS).
  - split; cbn; try discriminate; try contradiction; try (intros [|k]; discriminate); reflexivity.
  - exact Hnd.
  - exact P.
  - cbn [app length] in *.
    assert (Hphi : map (pos nodes) nodes = seq 1 (length nodes)).
    { clear - Hnd. apply (nth_ext _ _ 0 0); [now rewrite map_length, seq_length|]. intros k Hk. rewrite map_length in Hk. rewrite seq_nth by exact Hk.
      rewrite (nth_indep _ 0 (pos nodes 0)) by now rewrite map_length. rewrite map_nth. rewrite (pos_nth nodes k); [reflexivity|exact Hnd|]. now apply nth_error_nth'. }
    exists (JObj d), (js_heap s), (pos nodes), (fold_left (set_ref_prop (jd_refs s')) (jd_props s') (jd_heap s')).
    split; [exact E|]. split.
    + unfold RootFromJSON. cbn [index_obj]. rewrite D1, D2, to_i64_zero. cbn [Z.eqb]. rewrite E'. cbn [obind]. rewrite Hphi. reflexivity.
    + destruct (set_refs_ok (jd_refs s') (jd_props s') (jd_heap s')) as [L H'].
      assert (Hlook : forall rf q, mfind m rf = Some q -> rget (jd_refs s') rf = pos nodes q).
      { intros rf q Hq. unfold rget. destruct (mfind (jd_refs s') rf) as [q'|] eqn:Eq.
        - destruct (rs_refs _ _ _ _ RS rf q' Eq) as (k & p & -> & Hk & Hp). rewrite Hq in Hp. apply Some_eq in Hp. subst p. symmetry. now apply pos_nth.
        - symmetry. apply pos_outside. intros Hin. apply In_nth_error in Hin. destruct Hin as [k Hk].
          destruct (rs_inst _ _ _ _ RS k q Hk) as (i & i' & rf' & A1 & A2 & _ & _ & A3).
          assert (rf' = rf); [|congruence]. destruct (R2 rf q Hq) as (_ & _ & i1 & Hi1 & <-). destruct (R2 rf' q A2) as (_ & _ & i2 & Hi2 & <-). congruence. }
      split.
      * rewrite L. apply (rs_len _ _ _ _ RS).
      * intros p q Hp Hq Epq. apply In_nth_error in Hp, Hq. destruct Hp as [a Ha], Hq as [b Hb].
        rewrite (pos_nth nodes a p Hnd Ha), (pos_nth nodes b q Hnd Hb) in Epq. injection Epq as <-. congruence.
      * intros p Hp. now apply pos_outside.
      * intros p x Hp Ex. apply In_nth_error in Hp. destruct Hp as [k Hk]. rewrite (pos_nth nodes k p Hnd Hk).
        destruct (rs_inst _ _ _ _ RS k p Hk) as (i & i' & rf & A1 & A2 & A3 & (B1 & B2 & B3 & B4 & B5) & A5). rewrite Ex in A1. apply Some_eq in A1. subst i.
        destruct (H' (S k) i' A3) as (i2 & C1 & C2 & C3 & C4 & C5 & C6). destruct (R2 rf p A2) as (_ & _ & y & Hy & Ry). destruct (R1 p x Ex) as (y' & Hy' & Sy).
        assert (y' = y) by congruence. subst y'.
        exists i2, y. split; [exact C1|]. split; [exact Hy|]. split; [exact Sy|]. split; [congruence|]. split; [congruence|]. split; [congruence|]. split; [congruence|].
        intros name. destruct (C6 name) as [[G1 G2]|(e & G1 & G2 & G3 & G4)].
        -- rewrite G1, B5. destruct (mfind (i_props x) name) as [v|] eqn:Ev; [|reflexivity].
           destruct v; try reflexivity. destruct (rs_all _ _ _ _ RS k p x name _ Hk Ex Ev) as (e & D3 & D4 & D5). now destruct (G2 e D3 D4).
        -- rewrite G4. destruct (rs_props _ _ _ _ RS e G1) as (k' & p' & x' & q & F1 & F2 & F3 & F4 & F5). rewrite G2 in F1. injection F1 as <-.
           rewrite Hk in F2. apply Some_eq in F2. subst p'. rewrite Ex in F3. apply Some_eq in F3. subst x'. rewrite G3 in F4. rewrite F4. cbn [json_prop]. f_equal. f_equal.
           destruct F5 as [[-> ->]|[Hq F5]]; [|now apply Hlook].
           unfold rget. destruct (mfind (jd_refs s') []) as [q'|] eqn:Eq; [destruct (rs_refs _ _ _ _ RS _ _ Eq) as (? & ? & _ & _ & Hbad); apply Hm in Hbad; discriminate Hbad|].
           symmetry. apply pos_outside. intros Hin. destruct (Hx 0 Hin) as (z & Hz & _). discriminate Hz.
Qed.
