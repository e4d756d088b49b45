(** PropCommands.v - C103: the files rbxfile-dcomp and rbxfile-dump read and write. *)
From Verif Require Import Base RbxlValues RbxlModel RbxlFile RbxlDump RbxlPartial StatCmd Commands SpecModel SpecFile SpecCommands TreeProofs PropFile PropDump.

Lemma dash_spec p : reflect (p = str "-") (is_dash p).
Proof. unfold is_dash. exact (beqb_spec p (str "-")). Qed.
Lemma is_dash_dash : is_dash (str "-") = true.
Proof. reflexivity. Qed.
Lemma not_dash p : p <> str "-" -> is_dash p = false.
Proof. intros H. destruct (dash_spec p); [contradiction|reflexivity]. Qed.

Lemma line_parsed args rest : command_line args rest -> flag_parse args = Rest rest.
Proof.
  destruct 1 as [|p rest [H|H]|rest]; try reflexivity.
  - destruct p as [|c [|d tl]]; try reflexivity. cbn [flag_parse]. destruct (Byte.eqb c x2d) eqn:E; [|reflexivity].
    apply Byte.byte_dec_bl in E. subst c. now destruct H.
  - now subst p.
Qed.
Lemma parsed_line args rest : flag_parse args = Rest rest -> command_line args rest.
Proof.
  destruct args as [|p args]; cbn [flag_parse]; [intros [= <-]; constructor|].
  destruct p as [|c [|d tl]].
  - intros [= <-]. constructor. now left.
  - intros [= <-]. constructor. cbn. destruct (Byte.eqb c x2d) eqn:E; [apply Byte.byte_dec_bl in E; subst c; now right|left].
    intros [= ->]. discriminate E.
  - destruct (Byte.eqb c x2d) eqn:E; cbn [negb].
    + apply Byte.byte_dec_bl in E. subst c. destruct (Byte.eqb d x2d) eqn:Ed.
      * apply Byte.byte_dec_bl in Ed. subst d. destruct tl as [|e tl]; [intros [= <-]; exact (line_dashes args)|].
        destruct (_ || _); [discriminate|]. destruct (_ || _); discriminate.
      * destruct (_ || _); [discriminate|]. destruct (_ || _); discriminate.
    + intros [= <-]. constructor. left. cbn. intros [= ->]. discriminate E.
Qed.

Section Cmd.
  Variables (o : os) (job : bytes -> work).
  Lemma main_run args rest stdin fs src c : command_line args rest -> input_of o fs stdin rest src c ->
    main o job args stdin fs =
    match (match rest with
           | _ :: p :: _ => if is_dash p then Some (fs, None) else match os_Create o fs p with Some (fs, i) => Some (fs, Some i) | None => None end
           | _ => Some (fs, None)
           end) with
    | None => Ended fs [] [LCreate (nth 1 rest [])] 0
    | Some (fs', dst) =>
        let w := job (match src with Some i => f_data fs' i | None => stdin end) in
        Ended (match dst with Some i => set_data fs' i (f_data fs' i ++ w_out w) | None => fs' end)
          (match dst with Some _ => [] | None => w_out w end) (map LNote (w_notes w)) (if w_crash w then 2 else 0)%N
    end.
  Proof.
    intros Hl Hi. unfold main. rewrite (line_parsed _ _ Hl). destruct Hi as [|rest|p rest i Hp Ho Hf].
    - reflexivity.
    - rewrite is_dash_dash. destruct rest as [|q rest]; [reflexivity|]. destruct (is_dash q); [reflexivity|]. destruct (os_Create o fs q) as [[fs' j]|]; reflexivity.
    - rewrite (not_dash _ Hp). unfold os_Open. rewrite Ho, Hf. destruct rest as [|q rest]; [reflexivity|]. destruct (is_dash q); [reflexivity|]. destruct (os_Create o fs q) as [[fs' j]|]; reflexivity.
  Qed.
  Lemma create_spec fs q i : may_create o q = true ->
    (f_at fs q = Some i \/ f_at fs q = None /\ i = f_new o q) ->
    exists fs', os_Create o fs q = Some (fs', i) /\ f_data fs' i = [] /\ only_changed fs q i fs'.
  Proof.
    intros Hm H. unfold os_Create. rewrite Hm. destruct H as [H|[H ->]]; rewrite H; eexists; (split; [reflexivity|]); unfold set_data, only_changed; cbn [f_at f_data]; rewrite Nat.eqb_refl;
      (split; [reflexivity|]).
    - split; [exact H|]. split; [reflexivity|]. intros j Hj. destruct (Nat.eqb_spec j i); [contradiction|reflexivity].
    - rewrite bytes_eqb_refl. split; [reflexivity|]. split.
      + intros p Hp. destruct (beqb_spec p q); [contradiction|reflexivity].
      + intros j Hj. destruct (Nat.eqb_spec j (f_new o q)); [contradiction|reflexivity].
  Qed.

  (** The command reads INPUT and leaves the result in OUTPUT, and changes
      nothing else, as long as they are not the same file. *)
  Theorem C103_run : forall args rest stdin fs src c dst,
    command_line args rest -> input_of o fs stdin rest src c -> output_of o fs rest dst ->
    (forall i q, src = Some i -> dst <> Some (q, i)) ->
    let e := main o job args stdin fs in let w := job c in
    leaves fs dst (w_out w) e /\ e_stderr e = map LNote (w_notes w) /\ e_status e = (if w_crash w then 2 else 0)%N.
  Proof.
    intros args rest stdin fs src c dst Hl Hi Ho Hne. cbv zeta. rewrite (main_run _ _ _ _ _ _ Hl Hi).
    assert (Hc : match src with Some i => f_data fs i | None => stdin end = c) by now destruct Hi.
    assert (G : forall p q rest' i, rest = p :: q :: rest' -> dst = Some (q, i) -> q <> str "-" -> may_create o q = true ->
      (f_at fs q = Some i \/ f_at fs q = None /\ i = f_new o q) ->
      leaves fs dst (w_out (job c)) (main o job args stdin fs) /\ e_stderr (main o job args stdin fs) = map LNote (w_notes (job c)) /\
      e_status (main o job args stdin fs) = (if w_crash (job c) then 2 else 0)%N).
    { intros p q rest' i -> -> Hq Hm Hat. rewrite (main_run _ _ _ _ _ _ Hl Hi), (not_dash _ Hq).
      destruct (create_spec fs q i Hm Hat) as (fs' & -> & H0 & H1 & H2 & H3).
      assert (Ec : match src with Some j => f_data fs' j | None => stdin end = c).
      { destruct src as [j|]; [|exact Hc]. rewrite H3; [exact Hc|]. intros ->. now apply (Hne i q). }
      rewrite Ec. cbn [e_fs e_stdout e_stderr e_status leaves]. split; [|split; reflexivity]. split; [reflexivity|].
      unfold set_data, only_changed. cbn [f_data f_at]. rewrite Nat.eqb_refl, H0. split; [reflexivity|]. split; [exact H1|]. split; [exact H2|].
      intros j Hj. destruct (Nat.eqb_spec j i); [contradiction|now apply H3]. }
    destruct Ho as [rest Hr|p rest|p q rest i Hq Hm Hat|p q rest Hq Hm Hat].
    - destruct rest as [|p [|q rest]]; [| |cbn in Hr; lia]; rewrite Hc; cbn; auto.
    - rewrite is_dash_dash, Hc. cbn; auto.
    - rewrite <- (main_run _ _ _ _ _ _ Hl Hi). eapply G; eauto.
    - rewrite <- (main_run _ _ _ _ _ _ Hl Hi). eapply G; eauto.
  Qed.
  (** If they are the same file, the command reads nothing. *)
  Theorem C103_same_file : forall args rest stdin fs i c q,
    command_line args rest -> input_of o fs stdin rest (Some i) c -> output_of o fs rest (Some (q, i)) ->
    let e := main o job args stdin fs in let w := job [] in
    leaves fs (Some (q, i)) (w_out w) e /\ e_stderr e = map LNote (w_notes w) /\ e_status e = (if w_crash w then 2 else 0)%N.
  Proof.
    intros args rest stdin fs i c q Hl Hi Ho. cbv zeta. rewrite (main_run _ _ _ _ _ _ Hl Hi).
    assert (G : exists p rest', rest = p :: q :: rest' /\ q <> str "-" /\ may_create o q = true /\ (f_at fs q = Some i \/ f_at fs q = None /\ i = f_new o q)).
    { inversion Ho; subst; do 2 eexists; (split; [reflexivity|]); auto. }
    destruct G as (p & rest' & -> & Hq & Hm & Hat). rewrite (not_dash _ Hq).
    destruct (create_spec fs q i Hm Hat) as (fs' & -> & H0 & H1 & H2 & H3). rewrite H0.
    cbn [e_fs e_stdout e_stderr e_status leaves]. split; [|split; reflexivity]. split; [reflexivity|].
    unfold set_data, only_changed. cbn [f_data f_at]. rewrite Nat.eqb_refl. split; [reflexivity|]. split; [exact H1|]. split; [exact H2|].
    intros j Hj. destruct (Nat.eqb_spec j i); [contradiction|now apply H3].
  Qed.
  (** Flags, an input that cannot be opened and an output that cannot be
      created: nothing is touched. *)
  Theorem C103_untouched : forall args stdin fs,
    (forall rest src c dst, command_line args rest -> input_of o fs stdin rest src c -> ~ output_of o fs rest dst) ->
    untouched fs (main o job args stdin fs) /\ e_stderr (main o job args stdin fs) <> [] /\
    (e_status (main o job args stdin fs) = 2%N <-> flag_parse args = BadFlag).
  Proof.
    intros args stdin fs H. unfold main. destruct (flag_parse args) as [rest| |] eqn:E.
    2, 3: cbn; repeat split; discriminate || auto.
    apply parsed_line in E. unfold untouched.
    assert (Hout : forall src c, input_of o fs stdin rest src c -> exists p q rest', rest = p :: q :: rest' /\ is_dash q = false /\ os_Create o fs q = None).
    { intros src c Hi. destruct rest as [|p [|q rest]].
      - exfalso. eapply H; [exact E|exact Hi|]. apply output_none. cbn. lia.
      - exfalso. eapply H; [exact E|exact Hi|]. apply output_none. cbn. lia.
      - exists p, q, rest. split; [reflexivity|]. destruct (dash_spec q) as [->|Hq]; [exfalso; eapply H; [exact E|exact Hi|apply output_dash]|]. split; [reflexivity|].
        unfold os_Create. destruct (may_create o q) eqn:Em; [|reflexivity]. exfalso. destruct (f_at fs q) as [i|] eqn:Ea.
        + eapply H; [exact E|exact Hi|eapply output_file; eauto].
        + eapply H; [exact E|exact Hi|eapply output_new; eauto]. }
    destruct rest as [|p rest].
    - destruct (Hout None stdin (input_none _ _ _)) as (? & ? & ? & K & _). discriminate K.
    - destruct (dash_spec p) as [->|Hp].
      + destruct (Hout None stdin (input_dash _ _ _ _)) as (? & q & rest' & K & Hq & Hcr). injection K as _ ->. rewrite Hq, Hcr. cbn. repeat split; discriminate.
      + unfold os_Open. destruct (may_open o p) eqn:Em; [|cbn; repeat split; discriminate]. destruct (f_at fs p) as [i|] eqn:Ea; [|cbn; repeat split; discriminate].
        destruct (Hout (Some i) (f_data fs i) (input_file o fs stdin p rest i Hp Em Ea)) as (? & q & rest' & K & Hq & Hcr). injection K as _ ->. rewrite Hq, Hcr. cbn. repeat split; discriminate.
  Qed.
End Cmd.

(** ** rbxfile-dcomp and rbxfile-dump *)
(** What is read back from OUTPUT is what INPUT holds, without compression, and
    running the command on OUTPUT makes the same file. *)
Theorem C103_dcomp : forall o lz spare args rest stdin fs src c dst f ws st, fills lz ->
  command_line args rest -> input_of o fs stdin rest src c -> output_of o fs rest dst ->
  (forall i q, src = Some i -> dst <> Some (q, i)) ->
  decode lz spare false c = OK (DModel f, ws, st) ->
  exists b, leaves fs dst b (main o (dcomp_job lz) args stdin fs) /\ e_status (main o (dcomp_job lz) args stdin fs) = 0%N /\
    decode lz spare false b = OK (DModel (FModel 0 (fm_classCount f) (fm_instCount f) (map uncompress (fm_chunks f)) (fm_trailing f) (fm_groups f)),
      filter (fun w => negb (gone w)) ws, st) /\
    forall o' args' rest' stdin' fs' src' dst', command_line args' rest' -> input_of o' fs' stdin' rest' src' b -> output_of o' fs' rest' dst' ->
      (forall i q, src' = Some i -> dst' <> Some (q, i)) ->
      leaves fs' dst' b (main o' (dcomp_job lz) args' stdin' fs') /\ e_stderr (main o' (dcomp_job lz) args' stdin' fs') = [].
Proof.
  intros o lz spare args rest stdin fs src c dst f ws st Hfl Hl Hi Ho Hne Hd.
  destruct (C20_decompress_decodes_same lz spare false c f ws st Hfl Hd) as (ws' & b & Eb & Hb).
  destruct (C103_run o (dcomp_job lz) args rest stdin fs src c dst Hl Hi Ho Hne) as (A & _ & S).
  assert (Ej : dcomp_job lz c = Work b (report "warning: " "error: " (some_warns ws') None) false) by (unfold dcomp_job; now rewrite Eb).
  rewrite Ej in A, S. exists b. split; [exact A|]. split; [exact S|]. split; [exact Hb|].
  intros o' args' rest' stdin' fs' src' dst' Hl' Hi' Ho' Hne'.
  pose proof (C20_decompress_idempotent lz false c ws' b Hfl Eb) as Ei.
  destruct (C103_run o' (dcomp_job lz) args' rest' stdin' fs' src' b dst' Hl' Hi' Ho' Hne') as (A' & N' & _).
  assert (Ej' : dcomp_job lz b = Work b [] false) by (unfold dcomp_job; now rewrite Ei). rewrite Ej' in A', N'. split; [exact A'|exact N'].
Qed.
Theorem C103_dump : forall o de lz spare partly args rest stdin fs src c dst ws text,
  command_line args rest -> input_of o fs stdin rest src c -> output_of o fs rest dst ->
  (forall i q, src = Some i -> dst <> Some (q, i)) ->
  Dump de lz spare false c = OK (ws, text) ->
  leaves fs dst text (main o (dump_job de lz spare partly) args stdin fs) /\ e_status (main o (dump_job de lz spare partly) args stdin fs) = 0%N.
Proof.
  intros o de lz spare partly args rest stdin fs src c dst ws text Hl Hi Ho Hne Hd.
  destruct (C103_run o (dump_job de lz spare partly) args rest stdin fs src c dst Hl Hi Ho Hne) as (A & _ & S).
  assert (Ej : dump_job de lz spare partly c = Work text (report "warning: " "error: " (some_warns ws) None) false) by (unfold dump_job; now rewrite Hd).
  rewrite Ej in A, S. split; [exact A|exact S].
Qed.
(** Neither command can rewrite a file in place: whatever the file held, it is
    empty afterwards, and the status is that of a success. *)
Lemma nothing_decompressed lz : exists e, decompress lz false [] = Err (e, []).
Proof. eexists. vm_compute. reflexivity. Qed.
Lemma nothing_dumped de lz spare : exists e, Dump de lz spare false [] = Err (e, []).
Proof. eexists. vm_compute. reflexivity. Qed.
Theorem C103_in_place_refuted : forall o de lz spare partly args rest stdin fs i c q job,
  job = dcomp_job lz \/ job = dump_job de lz spare partly ->
  command_line args rest -> input_of o fs stdin rest (Some i) c -> output_of o fs rest (Some (q, i)) ->
  let e := main o job args stdin fs in leaves fs (Some (q, i)) [] e /\ e_status e = 0%N.
Proof.
  intros o de lz spare partly args rest stdin fs i c q job Hj Hl Hi Ho. cbv zeta.
  destruct (C103_same_file o job args rest stdin fs i c q Hl Hi Ho) as (A & _ & S). split.
  - replace (w_out (job [])) with (@nil byte) in A; [exact A|]. destruct Hj as [->| ->].
    + unfold dcomp_job. destruct (nothing_decompressed lz) as [e ->]; reflexivity.
    + unfold dump_job. destruct (nothing_dumped de lz spare) as [e ->]. reflexivity.
  - rewrite S. destruct Hj as [->| ->].
    + unfold dcomp_job. destruct (nothing_decompressed lz) as [e ->]; reflexivity.
    + unfold dump_job. destruct (nothing_dumped de lz spare) as [e ->]. reflexivity.
Qed.
(** The status does not tell that a file could not be read; what was in OUTPUT
    is lost. *)
Theorem C103_status_refuted : forall o lz args rest stdin fs src c dst e ws,
  command_line args rest -> input_of o fs stdin rest src c -> output_of o fs rest dst ->
  (forall i q, src = Some i -> dst <> Some (q, i)) ->
  decompress lz false c = Err (e, ws) ->
  let r := main o (dcomp_job lz) args stdin fs in leaves fs dst [] r /\ e_status r = 0%N.
Proof.
  intros o lz args rest stdin fs src c dst e ws Hl Hi Ho Hne Hd. cbv zeta.
  destruct (C103_run o (dcomp_job lz) args rest stdin fs src c dst Hl Hi Ho Hne) as (A & _ & S).
  assert (Ej : dcomp_job lz c = Work [] (report "warning: " "error: " (some_warns ws) (Some (inr e))) false) by (unfold dcomp_job; now rewrite Hd).
  rewrite Ej in A, S. split; [exact A|exact S].
Qed.

(** ** Concrete command lines *)
Definition abc_fs : fsys :=
  Fs (fun p => if bytes_eqb p (str "in.rbxl") then Some 0 else if bytes_eqb p (str "link.rbxl") then Some 0 else if bytes_eqb p (str "old.rbxl") then Some 1 else None)
     (fun i => match i with 0 => header 0 0 0 (repeat x00 8) ++ frame_bytes (Frame sigEND 0 9 0 (str "</roblox>")) | 1 => str "old" | _ => [] end).
Definition abc_os : os := Os (fun _ => true) (fun _ => true) (fun p => 2 + length p).
Example C103_witness :
  os_ok abc_os abc_fs /\ command_line [str "in.rbxl"; str "new.rbxl"] [str "in.rbxl"; str "new.rbxl"] /\
  input_of abc_os abc_fs [] [str "in.rbxl"; str "new.rbxl"] (Some 0) (f_data abc_fs 0) /\
  output_of abc_os abc_fs [str "in.rbxl"; str "new.rbxl"] (Some (str "new.rbxl", 10)) /\
  (exists ws f st, decode toy_lz (fun _ => 0) false (f_data abc_fs 0) = OK (DModel f, ws, st) /\ length (fm_chunks f) = 1) /\
  (let e := main abc_os (dcomp_job toy_lz) [str "in.rbxl"; str "new.rbxl"] [] abc_fs in
   f_data (e_fs e) 10 = f_data abc_fs 0 /\ f_data (e_fs e) 0 = f_data abc_fs 0 /\ f_data (e_fs e) 1 = str "old" /\ e_stderr e = []) /\
  (let e := main abc_os (dcomp_job toy_lz) [str "--"; str "in.rbxl"; str "link.rbxl"] [] abc_fs in
   f_data (e_fs e) 0 = [] /\ e_status e = 0%N) /\
  flag_parse [str "-v"] = BadFlag /\ flag_parse [str "--help"; str "x"] = Help.
Proof.
  split. { intros p q. cbn. repeat destruct (bytes_eqb _ _); try discriminate; intros [=]; lia. }
  split; [constructor; left; discriminate|]. split; [now constructor|]. split; [exact (output_new abc_os abc_fs (str "in.rbxl") (str "new.rbxl") [] ltac:(discriminate) eq_refl eq_refl)|].
  split; [do 3 eexists; split; [vm_compute; reflexivity|reflexivity]|]. vm_compute. repeat split.
Qed.
Print Assumptions C103_run.
Print Assumptions C103_same_file.
Print Assumptions C103_untouched.
Print Assumptions C103_dcomp.
Print Assumptions C103_dump.
Print Assumptions C103_in_place_refuted.
Print Assumptions C103_status_refuted.
