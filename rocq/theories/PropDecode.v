(** PropDecode.v - C29, C30, C48: what Decode of the binary format accepts and
    what it makes of it. *)
From Coq Require Import Relations Permutation.
From Verif Require Import Base RbxlValues RbxlArrays RbxlModel RbxlFile RbxlFileProofs RbxValues Tree RbxlCodec RbxlApi
  SpecValues SpecModel SpecFile SpecTree SpecCodec SpecTables SpecDecode TreeProofs RbxlCodecTree RbxlCodecForest.

(** ** C29 *)
(** A file that was read is accepted exactly when its ids and lengths fit
    together; otherwise there is an error (columns with unreadable cells
    apart). *)
Theorem C29_accepted : forall lz spare noXML input f ws st q2m r h cws,
  decode lz spare noXML input = OK (DModel f, ws, st) -> codec_decode q2m f = OK (r, h, cws) -> consistent f.
Proof.
  intros lz spare noXML input f ws st q2m r h cws Hd H. pose proof (decode_file_model _ _ _ _ _ _ _ Hd) as Hf.
  unfold codec_decode in H. apply bind_OK in H. destruct H as (s & Es & _).
  destruct (decode_run q2m f Hf) as (R & _). destruct (R s Es) as [Ha Hok]. rewrite Forall_forall in Hok.
  assert (Hcls : forall g, In g (groups_in (fm_chunks f)) -> below (fm_classCount f) (gr_id g)).
  { intros g Hg. apply in_flat_map in Hg. destruct Hg as (c & Hc & Hg). specialize (Hok c Hc). unfold ok_so_far in Hok.
    destruct (ch_payload c); try contradiction. destruct Hg as [<-|[]]. apply Hok. }
  split.
  - apply Forall_forall. intros z Hz. apply in_map_iff in Hz. destruct Hz as (g & <- & Hg). now apply Hcls.
  - assert (Hp : forall pos c g, nth_error (fm_chunks f) pos = Some c -> In g (groups_in [c]) -> exists ids, group_get (fm_groups f) (gr_id g) = Some (pos, ids)).
    { intros pos c g Hc Hg. unfold groups_in in Hg. cbn in Hg. destruct (ch_payload c) eqn:Ec; try contradiction. destruct Hg as [<-|[]].
      eexists. eapply (af_pos _ _ _ _ Ha); eauto. }
    assert (Hgen : forall cs k, (forall i c g, nth_error cs i = Some c -> In g (groups_in [c]) -> exists ids, group_get (fm_groups f) (gr_id g) = Some (k + i, ids)) ->
      NoDup (map gr_id (groups_in cs)) /\ forall g, In g (groups_in cs) -> exists j ids, k <= j /\ group_get (fm_groups f) (gr_id g) = Some (j, ids)).
    { induction cs as [|c cs IH]; intros k Hk; [split; [constructor|intros g []]|].
      destruct (IH (S k)) as [I1 I2]. { intros i d g Hd' Hg. destruct (Hk (S i) d g Hd' Hg) as [ids E]. exists ids. rewrite E. do 2 f_equal. lia. }
      change (c :: cs) with ([c] ++ cs). rewrite groups_app, map_app. specialize (Hk 0 c). rewrite Nat.add_0_r in Hk. split.
      - assert (Hc1 : NoDup (map gr_id (groups_in [c]))) by (unfold groups_in; cbn; destruct (ch_payload c); cbn; try apply NoDup_nil; apply NoDup_cons; [intros []|apply NoDup_nil]).
        apply NoDup_join; [exact Hc1|exact I1|]. intros z Hz Hz'. apply in_map_iff in Hz, Hz'. destruct Hz as (g & <- & Hg), Hz' as (g' & Eg & Hg').
        destruct (Hk g eq_refl Hg) as [ids E]. destruct (I2 g' Hg') as (j & ids' & Hj & E'). rewrite Eg, E in E'. injection E' as E' _. lia.
      - intros g Hg. apply in_app_or in Hg. destruct Hg as [Hg|Hg].
        + destruct (Hk g eq_refl Hg) as [ids E]. exists k, ids. auto.
        + destruct (I2 g Hg) as (j & ids & Hj & E). exists j, ids. split; [lia|exact E]. }
    apply (Hgen (fm_chunks f) 0). intros i c g Hc Hg. now apply (Hp i c g).
  - eapply Forall_impl; [|exact (af_bound _ _ _ _ Ha)]. intros z. apply bounds_below.
  - apply Ha.
  - intros c g class ids gs Hc Ec. specialize (Hok c Hc). unfold ok_so_far in Hok. rewrite Ec in Hok. now apply Hok.
  - intros g name a Hg. apply in_flat_map in Hg. destruct Hg as (c & Hc & Hg). specialize (Hok c Hc). unfold ok_so_far in Hok.
    destruct (ch_payload c) eqn:Ec; try contradiction. destruct Hg as [E|[]]. injection E as -> -> ->. split; [exact Hok|].
    apply in_split in Hc. destruct Hc as (pre & post & Ef). destruct (fi_prop f Hf pre c post _ _ _ Ef Ec) as (n & Hn & Hw).
    unfold group_len in Hn. destruct (group_get (grow_all [] 0 pre) g) as [[pos ids]|] eqn:Eg; [|discriminate]. injection Hn as Hn.
    destruct (grow_all_get _ _ _ _ _ _ Eg) as [Hx|(_ & d & class & svc & gs & Hd' & Ed)]; [discriminate|].
    exists class, ids. split.
    + apply in_flat_map. exists d. split; [rewrite Ef; apply in_or_app; left; eapply nth_error_In; eauto|rewrite Ed; now left].
    + intros a' E. rewrite (proj2 (Hw a' E)). congruence.
  - intros c v ch ps Hc Ec. specialize (Hok c Hc). unfold ok_so_far in Hok. now rewrite Ec in Hok.
Qed.
Theorem C29_consistent_iff : forall lz spare noXML input f ws st q2m,
  decode lz spare noXML input = OK (DModel f, ws, st) ->
  (forall g name a, In (g, name, Some a) (columns_in (fm_chunks f)) -> ~ unreadable a) ->
  (consistent f -> exists r, codec_decode q2m f = OK r) /\ (~ consistent f -> exists e, codec_decode q2m f = Err e).
Proof.
  intros lz spare noXML input f ws st q2m Hd Hu. pose proof (decode_file_model _ _ _ _ _ _ _ Hd) as Hf.
  destruct (decode_run q2m f Hf) as (_ & R2 & R3 & R4). split.
  - intros Hc. destruct (R4 Hc Hu) as [s E]. unfold codec_decode. rewrite E. cbn [obind]. eauto.
  - intros Hc. destruct (codec_decode q2m f) as [[[r h] cws]|e| |] eqn:E; [|eauto| |].
    + exfalso. apply Hc. eapply C29_accepted; eauto.
    + exfalso. unfold codec_decode in E. destruct (dec_chunk_list q2m f 0 (fm_chunks f) k0) eqn:E'; try discriminate.
      destruct (R3 eq_refl) as (g & name & a & H1 & H2). exact (Hu g name a H1 H2).
    + unfold codec_decode in E. destruct (dec_chunk_list q2m f 0 (fm_chunks f) k0) eqn:E'; try discriminate. now contradiction R2.
Qed.
(** On any bytes at all: a panic needs an unreadable cell. *)
Theorem C29_panic_only : forall lz spare noXML input f ws st q2m,
  decode lz spare noXML input = OK (DModel f, ws, st) ->
  codec_decode q2m f <> Hang /\
  (codec_decode q2m f = Panic -> exists g name a, In (g, name, Some a) (columns_in (fm_chunks f)) /\ unreadable a).
Proof.
  intros lz spare noXML input f ws st q2m Hd. pose proof (decode_file_model _ _ _ _ _ _ _ Hd) as Hf.
  destruct (decode_run q2m f Hf) as (_ & R2 & R3 & _). unfold codec_decode.
  destruct (dec_chunk_list q2m f 0 (fm_chunks f) k0) as [s|e| |] eqn:E; cbn [obind]; (split; [discriminate || (intros _; now apply R2)|]); try (intros H; discriminate H).
  intros _. now apply R3.
Qed.

(** ** C48 *)
Theorem C48_decoded : forall lz spare noXML input f ws st q2m r h cws,
  decode lz spare noXML input = OK (DModel f, ws, st) -> codec_decode q2m f = OK (r, h, cws) ->
  length h = length (ids_in (fm_chunks f)) /\
  (forall k z, nth_error (ids_in (fm_chunks f)) k = Some z -> exists x, hget h (S k) = Some x /\ described q2m (fm_chunks f) z x) /\
  r_instances r = map (address (ids_in (fm_chunks f))) (kids (links_of [] (fm_chunks f)) (-1)%Z) /\
  (forall k, mfind (r_metadata r) k = mfind (rev (concat (metadata_in (fm_chunks f)))) k).
Proof.
  intros lz spare noXML input f ws st q2m r h cws Hd H. pose proof (decode_file_model _ _ _ _ _ _ _ Hd) as Hf.
  unfold codec_decode in H. apply bind_OK in H. destruct H as (s & Es & H). injection H as <- <- _.
  destruct (decode_run q2m f Hf) as (R & _). destruct (R s Es) as [Ha _]. cbn [r_instances r_metadata].
  split; [apply Ha|]. split; [apply Ha|]. split; [apply Ha|]. intros k. rewrite (af_meta _ _ _ _ Ha).
  assert (G : forall l m : list (bytes * bytes), mfind (fold_left (fun m kv => mset m (fst kv) (snd kv)) l m) k = match mfind (rev l) k with Some v => Some v | None => mfind m k end).
  { induction l as [|[a b] l IH] using rev_ind; intros m; [reflexivity|]. rewrite fold_left_app, rev_app_distr. cbn [fold_left rev app mfind fst snd].
    rewrite mfind_mset. destruct (beqb_spec a k); [reflexivity|apply IH]. }
  rewrite G. destruct (mfind (rev _) k); reflexivity.
Qed.

(** ** C30 *)
(** If every instance has at most one link and none is its own ancestor, the
    result is a forest. *)
Theorem C30_forest : forall lz spare noXML input f ws st q2m r h cws,
  decode lz spare noXML input = OK (DModel f, ws, st) -> codec_decode q2m f = OK (r, h, cws) ->
  NoDup (map fst (links_of [] (fm_chunks f))) -> (forall z, ~ ancestor (links_of [] (fm_chunks f)) z z) ->
  exists ts, forest_at h ts /\ r_instances r = map rroot ts.
Proof.
  intros lz spare noXML input f ws st q2m r h cws Hd H Hone Hac.
  destruct (C48_decoded _ _ _ _ _ _ _ _ _ _ _ Hd H) as (Hl & Hi & Hr & _).
  pose proof (C29_accepted _ _ _ _ _ _ _ _ _ _ _ Hd H) as Hc.
  destruct (forest_exists (links_of [] (fm_chunks f)) (ids_in (fm_chunks f)) h (co_distinct f Hc)) as (ts & Hts & E); auto.
  - intros Hm. pose proof (co_ids f Hc) as Hb. rewrite Forall_forall in Hb. specialize (Hb _ Hm). unfold below in Hb. lia.
  - intros cp Hcp. apply links_In in Hcp. exact Hcp.
  - intros k z Hk. destruct (Hi k z Hk) as (x & Hx & Hdx). exists x. split; [exact Hx|]. apply Hdx.
  - exists ts. split; [exact Hts|]. now rewrite Hr, E.
Qed.

(** ** Concrete files *)
Definition no_lz : lz4 := Lz4 (fun _ => None) (fun _ _ => None).
Definition no_xml : bytes -> tree_res := fun _ => Panic.
Definition no_quat : quat := fun _ _ _ _ => [].
Definition file_of (classes insts : N) (ps : list payload) : bytes :=
  match encode no_lz true false (FModel 0 classes insts (map (Chunk false) (ps ++ [PEnd endContent])) [] []) with
  | OK (_, b) => b
  | _ => []
  end.
(** Two classes, links in two orders, a column of references and one that is
    overwritten. *)
Definition good_file : bytes := file_of 2 3
  [PInst 0 (str "Folder") [0; 2]%Z false []; PInst 1 (str "Part") [1]%Z true [x01];
   PProp 0 (str "Target") (Some (ARR tReference [VReference 1; VReference (-1)]));
   PProp 1 (str "Size") (Some (ARR tInt [VInt 4]));
   PProp 1 (str "Size") (Some (ARR tInt [VInt 5]));
   PPrnt 0 [2; 1; 0]%Z [0; 0; -1]%Z].
Definition decoded (b : bytes) : option (fmodel * root * heap) :=
  match decode no_lz (fun _ => 0) true b with
  | OK (DModel f, _, _) => match codec_decode no_quat f with OK (r, h, _) => Some (f, r, h) | _ => None end
  | _ => None
  end.
Example C29_witness : match decoded good_file with
  | Some (f, r, h) =>
      ids_in (fm_chunks f) = [0; 2; 1]%Z /\ links_of [] (fm_chunks f) = [(2, 0); (1, 0); (0, -1)]%Z /\
      r = Root [1] [] /\
      h = [Inst (str "Folder") [] false [(str "Target", RReference 3)] [2; 3];
           Inst (str "Folder") [] false [(str "Target", RReference 0)] [];
           Inst (str "Part") [] true [(str "Size", RInt 5)] []]
  | None => False
  end.
Proof. vm_compute. repeat split. Qed.
Definition rejected (b : bytes) : Prop :=
  exists e ws, Decoder_Decode no_lz (fun _ => 0) no_quat no_xml true b = Err (e, ws).
Example C29_rejected_examples :
  rejected (file_of 1 1 [PInst 0 (str "A") [1]%Z false []]) /\                       (* instance id too large *)
  rejected (file_of 1 1 [PInst 1 (str "A") [0]%Z false []]) /\                       (* class id too large *)
  rejected (file_of 1 2 [PInst 0 (str "A") [0; 0]%Z false []]) /\                    (* an id twice *)
  rejected (file_of 2 2 [PInst 0 (str "A") [0]%Z false []; PInst 0 (str "B") [1]%Z false []]) /\  (* a class id twice *)
  rejected (file_of 1 1 [PInst 0 (str "A") [0]%Z false []; PPrnt 0 [1]%Z [-1]%Z]) /\ (* child too large *)
  rejected (file_of 1 1 [PInst 0 (str "A") [0]%Z false []; PPrnt 1 [0]%Z [-1]%Z]).   (* version of the links *)
Proof. repeat apply conj; unfold rejected; vm_compute; eexists; eexists; reflexivity. Qed.

(** A file that makes Decode panic: an optional column of references with a
    present cell.  The bytes are laid out for the in-place reading (C12). *)
Definition panic_cells : bytes := repeat x00 12 ++ [x02; x01; x01; x01].
Definition panic_file : bytes := file_of 1 3
  [PInst 0 (str "A") [0; 1; 2]%Z false [];
   PUnknown sigPROP (le32 0 ++ le32 1 ++ str "P" ++ [tid_byte tOptional; tid_byte tReference] ++
     match interleave panic_cells 4 with OK b => b | _ => [] end)].
Theorem C29_panic_refuted :
  Decoder_Decode no_lz (fun _ => 0) no_quat no_xml true panic_file = Panic.
Proof. vm_compute. reflexivity. Qed.

(** Links are not checked: a cycle, an instance with two parents, a root
    twice. *)
Theorem C30_cycle_refuted : exists f r h,
  decoded (file_of 1 2 [PInst 0 (str "A") [0; 1]%Z false []; PPrnt 0 [0; 1; 0]%Z [1; 0; -1]%Z]) = Some (f, r, h) /\
  r_instances r = [1] /\ (exists x, hget h 1 = Some x /\ i_children x = [2]) /\ (exists y, hget h 2 = Some y /\ i_children y = [1]).
Proof.
  eexists _, _, _. split; [vm_compute; reflexivity|]. vm_compute. split; [reflexivity|]. split; eexists; split; reflexivity.
Qed.
Theorem C30_forest_refuted : exists f r h,
  decoded (file_of 1 2 [PInst 0 (str "A") [0; 1]%Z false []; PPrnt 0 [0; 1; 0]%Z [1; 0; -1]%Z]) = Some (f, r, h) /\
  forall ts, r_instances r = map rroot ts -> ~ forest_at h ts.
Proof.
  destruct C30_cycle_refuted as (f & r & h & E & E1 & (x & Hx & Ex) & (y & Hy & Ey)). exists f, r, h. split; [exact E|].
  clear E. intros ts Et [Ht _]. rewrite E1 in Et.
  assert (Hno : forall n t, height t < n -> tree_at h t -> rroot t <> 1 /\ rroot t <> 2).
  { induction n as [|n IH]; intros t Hh Hat; [lia|]. destruct Hat as [p us i Hp Hc Hus]. cbn [rroot].
    assert (Hk : forall q, i_children i = [q] -> q <> 1 /\ q <> 2).
    { intros q Hq. rewrite Hc in Hq. destruct us as [|u [|? ?]]; try discriminate Hq. injection Hq as <-. inversion Hus as [|? ? Hu _]; subst.
      apply IH; [cbn [height fold_right] in Hh; lia|exact Hu]. }
    split; intros ->.
    - rewrite Hx in Hp. injection Hp as <-. destruct (Hk 2 Ex). congruence.
    - rewrite Hy in Hp. injection Hp as <-. destruct (Hk 1 Ey). congruence. }
  destruct ts as [|t [|? ?]]; try discriminate Et. injection Et as Et. inversion Ht as [|? ? Ht1 _]; subst.
  destruct (Hno (S (height t)) t) as [H1 _]; [lia|exact Ht1|]. congruence.
Qed.
Theorem C30_twice_refuted : exists f r h,
  decoded (file_of 1 3 [PInst 0 (str "A") [0; 1; 2]%Z false []; PPrnt 0 [0; 1; 2; 2; 0]%Z [-1; 0; 0; 1; -1]%Z]) = Some (f, r, h) /\
  r_instances r = [1; 1] /\
  (exists x, hget h 1 = Some x /\ i_children x = [2; 3]) /\ (exists y, hget h 2 = Some y /\ i_children y = [3]).
Proof.
  eexists _, _, _. split; [vm_compute; reflexivity|]. vm_compute. split; [reflexivity|]. split; eexists; split; reflexivity.
Qed.
(** The hypotheses of C30_forest are met. *)
Example C30_witness : match decoded good_file with
  | Some (f, r, h) => NoDup (map fst (links_of [] (fm_chunks f))) /\ forall z, ~ ancestor (links_of [] (fm_chunks f)) z z
  | None => False
  end.
Proof.
  assert (E : match decoded good_file with Some (f, _, _) => links_of [] (fm_chunks f) = [(2, 0); (1, 0); (0, -1)]%Z | None => False end) by (vm_compute; reflexivity).
  destruct (decoded good_file) as [[[f r] h]|]; [|exact E]. rewrite E. split.
  - repeat constructor; cbn; intuition lia.
  - assert (H : forall y z, ancestor [(2, 0); (1, 0); (0, -1)]%Z y z -> z = 0%Z /\ y <> 0%Z).
    { intros y z H. induction H as [y p [Hl Hp]|y p z [Hl Hp] _ [-> Hz]]; cbn in Hl.
      - destruct Hl as [E'|[E'|[E'|[]]]]; injection E' as <- <-; try (now contradiction Hp); split; lia.
      - destruct Hl as [E'|[E'|[E'|[]]]]; injection E' as <- <-; try (now contradiction Hp); now contradiction Hz. }
    intros z Hz. destruct (H z z Hz) as [-> Hne]. now apply Hne.
Qed.
Print Assumptions C29_accepted.
Print Assumptions C29_consistent_iff.
Print Assumptions C29_panic_only.
Print Assumptions C29_panic_refuted.
Print Assumptions C48_decoded.
Print Assumptions C30_forest.
Print Assumptions C30_forest_refuted.
