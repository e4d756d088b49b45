(** RbxlWriterProofs.v - the encoder with a failing writer as a list of items
    carried out in order. *)
From Verif Require Import Base RbxlValues RbxlArrays RbxlModel RbxlFile RbxValues Tree RbxlCodec RbxlApi RbxlWriter SpecWriter.
From Coq Require Import Lia.

Section S.
Context {E : Type}.
Variable no_errors : E -> bool.

Inductive item := IWrite (p : bytes) | ICount (n : nat) | IFail (n : nat) (e : err) | IStop (st : status).
Definition item_op (w : writer E) (i : item) : op :=
  match i with
  | IWrite p => wBytes w p
  | ICount n => wAdd n None
  | IFail n e => wAdd n (Some (CModel e))
  | IStop st => fun s => (s, st)
  end.
Fixpoint run (w : writer E) (l : list item) : op :=
  match l with
  | [] => fun s => (s, SGo)
  | i :: l => seq (item_op w i) (run w l)
  end.
Lemma run_app w a b s : run w (a ++ b) s = seq (run w a) (run w b) s.
Proof.
  revert s. induction a as [|i a IH]; intros s; cbn [app run]; [reflexivity|].
  unfold seq in *. destruct (item_op w i s) as [s' []]; try reflexivity. apply IH.
Qed.
Lemma seq_run w a b (oa ob : op) s : (forall s, oa s = run w a s) -> (forall s, ob s = run w b s) ->
  seq oa ob s = run w (a ++ b) s.
Proof. intros Ha Hb. rewrite run_app. unfold seq. rewrite Ha. destruct (run w a s) as [s' []]; auto. Qed.
Lemma run1 w i s : item_op w i s = run w [i] s.
Proof. cbn [run]. unfold seq. destruct (item_op w i s) as [s' []]; reflexivity. Qed.

Definition raw_items (lz : lz4) (c : rawchunk) : list item :=
  let len := N.of_nat (length (raw_payload c)) in
  IWrite (le32 (raw_sig c)) ::
  (if raw_compressed c then
     match lz_enc lz (raw_payload c) with
     | None => [IFail 0 ELz4]
     | Some d => [IWrite (le32 (N.of_nat (length d))); IWrite (le32 len); IWrite (le32 0); IWrite d]
     end
   else [IWrite (le32 0); IWrite (le32 len); IWrite (le32 0); IWrite (raw_payload c)]).
Definition chunk_items (lz : lz4) (u : bool) (c : chunk) : list item :=
  match payload_bytes (ch_payload c) with
  | OK p => ICount (length p) :: raw_items lz (Raw (psig (ch_payload c)) (negb u && ch_compressed c) p)
  | Err e => [IFail (count_at_error (ch_payload c)) e]
  | Panic => [IStop SPanic]
  | Hang => [IStop SHang]
  end.
Definition header_items (f : fmodel) : list item :=
  [IWrite (robloxSig ++ binaryMarker ++ binaryHeader); IWrite (le16 (fm_version f)); IWrite (le32 (fm_classCount f));
   IWrite (le32 (fm_instCount f)); IWrite (le64 0)].

Ltac oneop := first [ exact (run1 _ (IWrite _) _) | exact (run1 _ (IFail _ _) _) | exact (run1 _ (ICount _) _) ].
Lemma raw_run w lz c s : raw_writeTo w lz c s = run w (raw_items lz c) s.
Proof.
  unfold raw_writeTo, raw_items. rewrite <- (app_nil_l (IWrite _ :: _)).
  change ([] ++ IWrite (le32 (raw_sig c)) :: ?l) with ([IWrite (le32 (raw_sig c))] ++ l).
  cbn [app].
  match goal with |- _ = run w (?i :: ?l) s => change (i :: l) with ([i] ++ l) end.
  apply seq_run; [intros; oneop|]. intros s1. destruct (raw_compressed c); [destruct (lz_enc lz (raw_payload c))|];
  try oneop;
  repeat (match goal with |- _ = run w (?i :: ?j :: ?l) _ => change (i :: j :: l) with ([i] ++ j :: l) end;
          apply seq_run; [intros; oneop|intros]); oneop.
Qed.
Lemma chunk_run w lz u c s : chunk_writeTo w lz u c s = run w (chunk_items lz u c) s.
Proof.
  unfold chunk_writeTo, chunk_items. destruct (payload_bytes (ch_payload c)) as [p|e| |].
  - match goal with |- _ = run w (?i :: ?l) s => change (i :: l) with ([i] ++ l) end.
    apply seq_run; [intros; oneop|intros; apply raw_run].
  - oneop.
  - reflexivity.
  - reflexivity.
Qed.
Lemma header_run w f s :
  (seq (wBytes w (robloxSig ++ binaryMarker ++ binaryHeader)) (seq (wBytes w (le16 (fm_version f)))
   (seq (wBytes w (le32 (fm_classCount f))) (seq (wBytes w (le32 (fm_instCount f))) (wBytes w (le64 0)))))) s
  = run w (header_items f) s.
Proof.
  unfold header_items.
  repeat (match goal with |- _ = run w (?i :: ?j :: ?l) _ => change (i :: j :: l) with ([i] ++ j :: l) end;
          apply seq_run; [intros; oneop|intros]); oneop.
Qed.

(** ** The whole, with warnings: groups of warnings and items *)
Definition group := (list warning * list item)%type.
Fixpoint runs (w : writer E) (gs : list group) (ws : list warning) (s : bw) : bw * status * list warning :=
  match gs with
  | [] => (s, SGo, ws)
  | (x, l) :: gs =>
      match run w l s with
      | (s, SGo) => runs w gs (ws ++ x) s
      | (s, st) => (s, st, ws ++ x)
      end
  end.
Fixpoint chunk_groups (lz : lz4) (u d : bool) (i n : nat) (cs : list chunk) : list group :=
  match cs with
  | [] => []
  | c :: cs => (enc_warns u d i n c, chunk_items lz u c) :: chunk_groups lz u d (S i) n cs
  end.
Definition groups_of (lz : lz4) (u d : bool) (f : fmodel) : list group :=
  ([], header_items f) :: chunk_groups lz u d 0 (length (fm_chunks f)) (fm_chunks f) ++ [([], [IWrite (fm_trailing f)])].

Lemma chunks_runs w lz u d n cs : forall i ws s,
  chunks_writeTo w lz u d i n cs ws s = runs w (chunk_groups lz u d i n cs) ws s.
Proof.
  induction cs as [|c cs IH]; intros i ws s; [reflexivity|]. cbn [chunks_writeTo chunk_groups runs].
  rewrite chunk_run. destruct (run w (chunk_items lz u c) s) as [s' []]; auto.
Qed.
Lemma runs_app w a b : forall ws s,
  runs w (a ++ b) ws s = match runs w a ws s with (s, SGo, ws) => runs w b ws s | r => r end.
Proof.
  induction a as [|[x l] a IH]; intros ws s; [reflexivity|]. cbn [app runs].
  destruct (run w l s) as [s' []]; auto.
Qed.
Lemma encodeTo_runs w lz u d f :
  encodeTo no_errors w lz u d f = finish no_errors (runs w (groups_of lz u d f) [] bw0).
Proof.
  unfold encodeTo, groups_of. rewrite header_run. cbn [runs].
  destruct (run w (header_items f) bw0) as [s' []]; try reflexivity.
  rewrite runs_app, chunks_runs. cbn [app].
  destruct (runs w (chunk_groups lz u d 0 (length (fm_chunks f)) (fm_chunks f)) [] s') as [[s2 []] ws]; try reflexivity.
  cbn [runs]. rewrite <- run1. cbn [item_op]. destruct (wBytes w (fm_trailing f) s2) as [s3 []]; rewrite ?app_nil_r; reflexivity.
Qed.

(** ** Running items *)
Lemma delivered_app (a b : list (call E)) : delivered (a ++ b) = delivered a ++ delivered b.
Proof. apply flat_map_app. Qed.
Lemma asked_app (a b : list (call E)) : asked (a ++ b) = asked a ++ asked b.
Proof. apply flat_map_app. Qed.
Lemma delivered_whole (l : list (call E)) : Forall whole l -> delivered l = asked l.
Proof.
  induction 1 as [|c l [_ H]]; [reflexivity|]. cbn. unfold delivered, asked in *. cbn. rewrite IHForall. f_equal.
  rewrite H. apply firstn_all.
Qed.

(** The states of two runs, of any writer and of the accepting one, agree *)
Definition agree (s s' : @bw E) : Prop :=
  bw_err s = None /\ bw_err s' = None /\ bw_n s = bw_n s' /\ map (@c_arg E) (bw_calls s) = map (@c_arg E) (bw_calls s') /\
  Forall whole (bw_calls s) /\ Forall whole (bw_calls s').

Lemma agree_asked s s' : agree s s' -> asked (bw_calls s) = asked (bw_calls s').
Proof. intros (_ & _ & _ & H & _). 
  assert (G : forall l : list (call E), asked l = concat (map (@c_arg E) l)).
  { induction l as [|c l IH]; [reflexivity|]. cbn. rewrite <- IH. reflexivity. }
  rewrite !G, H. reflexivity. Qed.

(** A writer that failed: the last call has the error, the calls before are
    whole, the run of the accepting writer has all those calls and more *)
Definition stopped (w : writer E) (s s' : @bw E) : Prop :=
  exists before last e, bw_calls s = before ++ [last] /\ Forall whole before /\
    c_err last = Some e /\ w before (c_arg last) = (c_n last, Some e) /\ bw_err s = Some (CWriter e) /\ (c_n last <= length (c_arg last))%nat /\
    exists more, asked (bw_calls s') = asked before ++ c_arg last ++ more.

Lemma item_step w i s s' : contract w -> agree s s' ->
  let r := item_op w i s in let r' := item_op accept_all i s' in
  (snd r = SGo /\ snd r' = SGo /\ agree (fst r) (fst r')) \/
  (snd r = SFail /\ snd r' = SGo /\ stopped w (fst r) (fst r') /\ Forall whole (bw_calls (fst r')) /\ bw_err (fst r') = None) \/
  (snd r = snd r' /\ snd r <> SGo /\ bw_calls (fst r) = bw_calls s /\ bw_calls (fst r') = bw_calls s' /\
   bw_err (fst r) = bw_err (fst r') /\ bw_n (fst r) = bw_n (fst r') /\ (forall e, bw_err (fst r) <> Some (CWriter e)) /\
   (snd r = SFail <-> bw_err (fst r) <> None)) \/
  (exists st, i = IStop st /\ (st = SGo \/ st = SFail)).
Proof.
  intros Hw Ha. pose proof Ha as (H1 & H2 & H3 & H4 & H5 & H6). destruct i as [p|n|n e|st]; cbn zeta; cbn [item_op].
  - unfold wBytes. rewrite H1, H2. unfold accept_all at 1 2. cbn [fst snd]. destruct (Hw (bw_calls s) p) as [B1 B2].
    destruct (w (bw_calls s) p) as [n e] eqn:Ew; cbn [fst snd] in *. destruct e as [e|]; cbn [fst snd].
    + right; left. split; [reflexivity|]. split; [reflexivity|]. split; [|cbn; split; [|reflexivity]].
      * exists (bw_calls s), (Call p n (Some e)), e. cbn [bw_calls bw_err c_err c_n c_arg option_map]. repeat split; auto.
        exists []. cbn [fst bw_calls accept_all]. rewrite asked_app, app_nil_r. cbn [asked flat_map c_arg]. rewrite app_nil_r. f_equal. symmetry. apply agree_asked, Ha.
      * apply Forall_app. split; [assumption|]. constructor; [split; reflexivity|constructor].
    + left. specialize (B2 eq_refl). subst n. repeat split; cbn [fst snd bw_calls bw_err bw_n option_map]; auto.
      * rewrite !map_app, H4. reflexivity.
      * apply Forall_app. split; [assumption|]. constructor; [split; reflexivity|constructor].
      * apply Forall_app. split; [assumption|]. constructor; [split; reflexivity|constructor].
  - left. unfold wAdd. rewrite H1, H2. repeat split; cbn; auto.
  - right; right; left. unfold wAdd. rewrite H1, H2. cbn. repeat split; auto; congruence.
  - destruct st; [right; right; right; eauto|right; right; right; eauto|right; right; left|right; right; left]; cbn;
    repeat split; try congruence; rewrite ?H1; congruence.
Qed.

(** No item stops without a cause *)
Definition ok_item (i : item) : Prop := i <> IStop SGo /\ i <> IStop SFail.
Definition rest_of (s s' : @bw E) : Prop :=
  bw_err s = bw_err s' /\ bw_n s = bw_n s' /\ map (@c_arg E) (bw_calls s) = map (@c_arg E) (bw_calls s') /\
  Forall whole (bw_calls s) /\ Forall whole (bw_calls s') /\ (forall e, bw_err s <> Some (CWriter e)).

Lemma wBytes_mono p (s : @bw E) : Forall whole (bw_calls s) -> 
  let s' := fst (wBytes accept_all p s) in Forall whole (bw_calls s') /\ exists x, asked (bw_calls s') = asked (bw_calls s) ++ x.
Proof.
  intros H. unfold wBytes. destruct (bw_err s); cbn [fst accept_all bw_calls].
  - split; [assumption|]. exists []. rewrite app_nil_r. reflexivity.
  - split; [apply Forall_app; split; [assumption|]; constructor; [split; reflexivity|constructor]|].
    exists p. rewrite asked_app. cbn. rewrite app_nil_r. reflexivity.
Qed.
Lemma item_mono i (s : @bw E) : Forall whole (bw_calls s) ->
  let s' := fst (item_op accept_all i s) in Forall whole (bw_calls s') /\ exists x, asked (bw_calls s') = asked (bw_calls s) ++ x.
Proof.
  intros H. destruct i as [p|n|n e|st]; cbn [item_op]; [apply wBytes_mono; assumption|..];
  unfold wAdd; try destruct (bw_err s); cbn; (split; [assumption|exists []; rewrite app_nil_r; reflexivity]).
Qed.
Lemma run_mono l : forall (s : @bw E), Forall whole (bw_calls s) ->
  let s' := fst (run accept_all l s) in Forall whole (bw_calls s') /\ exists x, asked (bw_calls s') = asked (bw_calls s) ++ x.
Proof.
  induction l as [|i l IH]; intros s H.
  - split; [assumption|exists []; rewrite app_nil_r; reflexivity].
  - cbn [run]. unfold seq. destruct (item_mono i s H) as (H1 & x & H2).
    destruct (item_op accept_all i s) as [s1 st]; cbn [fst] in *.
    destruct st; cbn [fst]; [|split; eauto ..]. destruct (IH s1 H1) as (H3 & y & H4). split; [exact H3|].
    exists (x ++ y). rewrite H4, H2, app_assoc. reflexivity.
Qed.
Lemma runs_mono gs : forall ws (s : @bw E), Forall whole (bw_calls s) ->
  let r := runs accept_all gs ws s in Forall whole (bw_calls (fst (fst r))) /\
  (exists x, asked (bw_calls (fst (fst r))) = asked (bw_calls s) ++ x) /\ exists y, snd r = ws ++ y.
Proof.
  induction gs as [|[x l] gs IH]; intros ws s H.
  - split; [assumption|]. split; [exists []|exists []]; rewrite app_nil_r; reflexivity.
  - cbn [runs]. destruct (run_mono l s H) as (H1 & y & H2). destruct (run accept_all l s) as [s1 st]; cbn [fst] in *.
    destruct st; cbn [fst snd]; [|split; [exact H1|]; split; eauto ..].
    destruct (IH (ws ++ x) s1 H1) as (H3 & (z & H4) & t & H5). split; [exact H3|]. split.
    + exists (y ++ z). rewrite H4, H2, app_assoc. reflexivity.
    + exists (x ++ t). rewrite H5, app_assoc. reflexivity.
Qed.

Definition whole_run (w : writer E) (l : list item) (s s' : @bw E) : Prop :=
  (snd (run w l s) = SGo /\ snd (run accept_all l s') = SGo /\ agree (fst (run w l s)) (fst (run accept_all l s'))) \/
  (snd (run w l s) = SFail /\ stopped w (fst (run w l s)) (fst (run accept_all l s')) /\ Forall whole (bw_calls (fst (run accept_all l s')))) \/
  (snd (run w l s) = snd (run accept_all l s') /\ snd (run w l s) <> SGo /\
   rest_of (fst (run w l s)) (fst (run accept_all l s')) /\ (snd (run w l s) = SFail <-> bw_err (fst (run w l s)) <> None)).

Lemma stopped_more w s s1 s2 : stopped w s s1 -> (exists x, asked (bw_calls s2) = asked (bw_calls s1) ++ x) -> stopped w s s2.
Proof.
  intros (b & la & e & H1 & H2 & H3 & H3' & H4 & H5 & m & H6) (x & Hx).
  exists b, la, e. repeat split; auto. exists (m ++ x). rewrite Hx, H6, <- !app_assoc. reflexivity.
Qed.
Lemma run_split w l : contract w -> Forall ok_item l -> forall s s', agree s s' -> whole_run w l s s'.
Proof.
  intros Hw. induction l as [|i l IH]; intros Hl s s' Ha.
  - left. repeat split; try apply Ha.
  - inversion Hl as [|? ? [Hi1 Hi2] Hl']; subst. unfold whole_run. cbn [run]. unfold seq.
    destruct (item_step w i s s' Hw Ha) as [(A1 & A2 & A3)|[(A1 & A2 & A3 & A4 & A5)|[(A1 & A2 & A3 & A4 & A5 & A6 & A7 & A8)|(st & A1 & A2)]]].
    + destruct (item_op w i s) as [s1 st1], (item_op accept_all i s') as [s1' st1']; cbn [fst snd] in *. subst.
      exact (IH Hl' s1 s1' A3).
    + destruct (item_op w i s) as [s1 st1], (item_op accept_all i s') as [s1' st1']; cbn [fst snd] in *. subst.
      right; left. cbn [fst snd]. destruct (run_mono l s1' A4) as (M1 & M2).
      split; [reflexivity|]. split; [|exact M1]. eapply stopped_more; eassumption.
    + destruct (item_op w i s) as [s1 st1], (item_op accept_all i s') as [s1' st1']; cbn [fst snd] in *. subst st1'.
      right; right. destruct Ha as (H1 & H2 & H3 & H4 & H5 & H6).
      assert (R : rest_of s1 s1'). { unfold rest_of. rewrite A3, A4. repeat split; assumption. }
      destruct st1; [congruence|..]; cbn [fst snd]; (split; [reflexivity|]; split; [congruence|]; split; [exact R|exact A8]).
    + exfalso. destruct A2; subst; congruence.
Qed.

Definition ok_group (g : group) : Prop := Forall ok_item (snd g).
Definition whole_runs (w : writer E) (gs : list group) ws (s s' : @bw E) : Prop :=
  let r := runs w gs ws s in let r' := runs accept_all gs ws s' in
  (snd (fst r) = SGo /\ snd (fst r') = SGo /\ agree (fst (fst r)) (fst (fst r')) /\ snd r = snd r') \/
  (snd (fst r) = SFail /\ stopped w (fst (fst r)) (fst (fst r')) /\ Forall whole (bw_calls (fst (fst r'))) /\
   exists x, snd r' = snd r ++ x) \/
  (snd (fst r) = snd (fst r') /\ snd (fst r) <> SGo /\ rest_of (fst (fst r)) (fst (fst r')) /\ snd r = snd r' /\
   (snd (fst r) = SFail <-> bw_err (fst (fst r)) <> None)).

Lemma runs_split w gs : contract w -> Forall ok_group gs -> forall ws s s', agree s s' -> whole_runs w gs ws s s'.
Proof.
  intros Hw. induction gs as [|[x l] gs IH]; intros Hl ws s s' Ha.
  - left. repeat split; try apply Ha.
  - inversion Hl as [|? ? Hi Hl']; subst. cbn in Hi. unfold whole_runs. cbn [runs].
    destruct (run_split w l Hw Hi s s' Ha) as [(A1 & A2 & A3)|[(A1 & A2 & A3)|(A1 & A2 & A3 & A4)]];
    destruct (run w l s) as [s1 st1], (run accept_all l s') as [s1' st1']; cbn [fst snd] in *; subst.
    + exact (IH Hl' (ws ++ x) s1 s1' A3).
    + right; left. cbn [fst snd]. split; [reflexivity|]. destruct st1'.
      * destruct (runs_mono gs (ws ++ x) s1' A3) as (M1 & M2 & M3). split; [eapply stopped_more; eassumption|]. split; assumption.
      * cbn [fst snd]. repeat split; auto. exists []. rewrite app_nil_r. reflexivity.
      * cbn [fst snd]. repeat split; auto. exists []. rewrite app_nil_r. reflexivity.
      * cbn [fst snd]. repeat split; auto. exists []. rewrite app_nil_r. reflexivity.
    + right; right. destruct st1'; [congruence|..]; cbn [fst snd]; repeat split; try apply A3; try apply A4; congruence.
Qed.

Lemma ok_items lz u c : Forall ok_item (chunk_items lz u c).
Proof.
  unfold chunk_items. destruct (payload_bytes (ch_payload c)); [|repeat constructor; discriminate ..].
  unfold raw_items. cbn [raw_compressed raw_sig raw_payload].
  destruct (negb u && ch_compressed c)%bool; [destruct (lz_enc lz a)|]; repeat constructor; discriminate.
Qed.
Lemma ok_groups lz u d f : Forall ok_group (groups_of lz u d f).
Proof.
  unfold groups_of. constructor; [repeat constructor; discriminate|]. apply Forall_app. split; [|repeat constructor; discriminate].
  generalize 0%nat, (length (fm_chunks f)). induction (fm_chunks f) as [|c cs IH]; intros i n; cbn; constructor; auto.
  apply ok_items.
Qed.
Lemma agree0 : agree bw0 bw0.
Proof. repeat split; constructor. Qed.

(** ** The accepting run and the pure encoder *)
Definition sigpart (c : chunk) : bytes :=
  match payload_bytes (ch_payload c) with OK _ => le32 (psig (ch_payload c)) | _ => [] end.

Lemma write_acc p (s : @bw E) : bw_err s = None ->
  wBytes accept_all p s = (BW (bw_calls s ++ [Call p (length p) None]) (bw_n s + length p) None, SGo).
Proof. intros H. unfold wBytes. rewrite H. reflexivity. Qed.
Lemma writes_acc ps : forall (s : @bw E), bw_err s = None ->
  exists s', run accept_all (map IWrite ps) s = (s', SGo) /\ bw_err s' = None /\
    asked (bw_calls s') = asked (bw_calls s) ++ concat ps /\ bw_n s' = (bw_n s + length (concat ps))%nat.
Proof.
  induction ps as [|p ps IH]; intros s H.
  - exists s. cbn. rewrite app_nil_r. repeat split; auto.
  - cbn [map run item_op]. unfold seq. rewrite (write_acc p s H).
    destruct (IH (BW (bw_calls s ++ [Call p (length p) None]) (bw_n s + length p) None) eq_refl) as (s' & E1 & E2 & E3 & E4).
    exists s'. rewrite E1. repeat split; auto.
    + rewrite E3. cbn [bw_calls]. rewrite asked_app. cbn. rewrite app_nil_r, <- app_assoc. reflexivity.
    + rewrite E4. cbn [bw_n concat]. rewrite app_length. lia.
Qed.
Lemma begun_error c e : payload_bytes (ch_payload c) = Err e -> count_at_error (ch_payload c) = begun c.
Proof.
  intros H. unfold begun. rewrite H. destruct (ch_payload c); cbn [count_at_error]; try reflexivity.
Qed.
Lemma chunk_acc lz u c (s : @bw E) : bw_err s = None ->
  let r := run accept_all (chunk_items lz u c) s in
  match enc_chunk lz u c with
  | OK b => snd r = SGo /\ bw_err (fst r) = None /\ asked (bw_calls (fst r)) = asked (bw_calls s) ++ b /\ bw_n (fst r) = (bw_n s + plen c + length b)%nat
  | Err e => snd r = SFail /\ bw_err (fst r) = Some (CModel e) /\ asked (bw_calls (fst r)) = asked (bw_calls s) ++ sigpart c /\ bw_n (fst r) = (bw_n s + begun c)%nat
  | Panic => snd r = SPanic
  | Hang => snd r = SHang
  end.
Proof.
  intros H. cbv zeta. unfold enc_chunk, chunk_items, sigpart, plen. pose proof (begun_error c) as BE. destruct (payload_bytes (ch_payload c)) as [p|e| |] eqn:Ep; cbn [obind].
  - assert (G : forall l, run accept_all (ICount (length p) :: l) s = run accept_all l (BW (bw_calls s) (bw_n s + length p) None)).
    { intros l. cbn [run item_op]. unfold seq, wAdd. rewrite H. reflexivity. }
    rewrite G. clear G. set (s1 := BW (bw_calls s) _ None). assert (H1 : bw_err s1 = None) by reflexivity.
    assert (Hs : asked (bw_calls s) = asked (bw_calls s1)) by reflexivity. assert (Hn : (bw_n s + length p)%nat = bw_n s1) by reflexivity. rewrite Hs, Hn. clearbody s1. clear Hs.
    unfold raw_write, raw_items. cbn [raw_compressed raw_sig raw_payload].
    destruct (negb u && ch_compressed c)%bool.
    + destruct (lz_enc lz p) as [d|].
      * destruct (writes_acc [le32 (psig (ch_payload c)); le32 (N.of_nat (length d)); le32 (N.of_nat (length p)); le32 0; d] s1 H1)
          as (s' & E1 & E2 & E3 & E4). cbn [map] in E1. cbn [snd]. rewrite E1. cbn [snd fst]. cbn [concat] in E3, E4. rewrite app_nil_r in E3, E4. repeat split; assumption.
      * cbn [run item_op]. unfold seq. rewrite (write_acc _ s1 H1). unfold wAdd. cbn [bw_err snd fst bw_calls].
        repeat split; [rewrite asked_app; cbn; reflexivity|]. cbn [bw_n]. unfold begun. rewrite Ep. lia.
    + destruct (writes_acc [le32 (psig (ch_payload c)); le32 0; le32 (N.of_nat (length p)); le32 0; p] s1 H1)
          as (s' & E1 & E2 & E3 & E4). cbn [map] in E1. cbn [snd]. rewrite E1. cbn [snd fst]. cbn [concat] in E3, E4. rewrite app_nil_r in E3, E4. repeat split; assumption.
  - cbn [run item_op]. unfold seq, wAdd. rewrite H. cbn [snd fst bw_err bw_calls bw_n]. rewrite app_nil_r. repeat split. now rewrite (BE e eq_refl).
  - reflexivity.
  - reflexivity.
Qed.
Definition chunks_ok lz u d i n cs ws b := enc_chunks lz u d i n cs = OK (ws, b).
Lemma chunks_acc lz u d n cs : forall i ws0 (s : @bw E), bw_err s = None ->
  let r := runs accept_all (chunk_groups lz u d i n cs) ws0 s in
  match enc_chunks lz u d i n cs with
  | OK (ws, b) => snd (fst r) = SGo /\ bw_err (fst (fst r)) = None /\
                  asked (bw_calls (fst (fst r))) = asked (bw_calls s) ++ b /\ snd r = ws0 ++ ws /\
                  bw_n (fst (fst r)) = (bw_n s + total plen cs + length b)%nat
  | Err e => exists good c rest ws b, cs = good ++ c :: rest /\ enc_chunks lz u d i n good = OK (ws, b) /\
      enc_chunk lz u c = Err e /\ snd (fst r) = SFail /\ bw_err (fst (fst r)) = Some (CModel e) /\
      asked (bw_calls (fst (fst r))) = asked (bw_calls s) ++ b ++ sigpart c /\
      bw_n (fst (fst r)) = (bw_n s + total plen good + length b + begun c)%nat
  | Panic => snd (fst r) = SPanic
  | Hang => snd (fst r) = SHang
  end.
Proof.
  induction cs as [|c cs IH]; intros i ws0 s H; cbv zeta.
  - cbn. rewrite !app_nil_r. repeat split; auto. lia.
  - cbn [enc_chunks chunk_groups runs]. pose proof (chunk_acc lz u c s H) as A. cbv zeta in A.
    destruct (run accept_all (chunk_items lz u c) s) as [s1 st1]; cbn [fst snd] in A.
    destruct (enc_chunk lz u c) as [b|e| |] eqn:Ec; cbn [obind].
    + destruct A as (-> & A2 & A3 & A4). specialize (IH (S i) (ws0 ++ enc_warns u d i n c) s1 A2). cbv zeta in IH.
      destruct (enc_chunks lz u d (S i) n cs) as [[ws b']|e| |]; cbn [obind].
      * destruct IH as (B1 & B2 & B3 & B4 & B5). repeat split; auto.
        -- rewrite B3, A3, <- app_assoc. reflexivity.
        -- rewrite B4, <- app_assoc. reflexivity.
        -- rewrite B5, A4, app_length. unfold total. cbn [map list_sum fold_right]. fold (list_sum (map plen cs)). lia.
      * destruct IH as (good & c' & rest & ws & b' & B1 & B2 & B3 & B4 & B5 & B6 & B7).
        exists (c :: good), c', rest, (enc_warns u d i n c ++ ws), (b ++ b'). subst cs. repeat split; auto.
        -- cbn [enc_chunks]. rewrite Ec. cbn [obind]. rewrite B2. reflexivity.
        -- rewrite B6, A3, <- !app_assoc. reflexivity.
        -- rewrite B7, A4, app_length. unfold total. cbn [map list_sum fold_right]. fold (list_sum (map plen good)). lia.
      * exact IH.
      * exact IH.
    + destruct A as (-> & A2 & A3 & A4). exists [], c, cs, [], []. cbn [fst snd app enc_chunks]. repeat split; auto. rewrite A4. cbn. lia.
    + rewrite A. reflexivity.
    + rewrite A. reflexivity.
Qed.

Definition head_bytes (f : fmodel) : bytes :=
  robloxSig ++ binaryMarker ++ binaryHeader ++ le16 (fm_version f) ++ le32 (fm_classCount f) ++ le32 (fm_instCount f) ++ le64 0.
Lemma header_acc f (s : @bw E) : bw_err s = None ->
  exists s', run accept_all (header_items f) s = (s', SGo) /\ bw_err s' = None /\
    asked (bw_calls s') = asked (bw_calls s) ++ head_bytes f /\ bw_n s' = (bw_n s + length (head_bytes f))%nat.
Proof.
  intros H. destruct (writes_acc [robloxSig ++ binaryMarker ++ binaryHeader; le16 (fm_version f); le32 (fm_classCount f);
     le32 (fm_instCount f); le64 0] s H) as (s' & E1 & E2 & E3 & E4). cbn [map] in E1.
  exists s'. unfold header_items. rewrite E1.
  assert (G : concat [robloxSig ++ binaryMarker ++ binaryHeader; le16 (fm_version f); le32 (fm_classCount f);
     le32 (fm_instCount f); le64 0] = head_bytes f).
  { unfold head_bytes. cbn [concat]. rewrite app_nil_r, <- !app_assoc. reflexivity. }
  rewrite G in *. auto.
Qed.

Lemma encode_acc lz u d f :
  match encode lz u d f with
  | OK (ws, b) => exists calls, encodeTo no_errors accept_all lz u d f = Ran calls (OK (ws, None)) /\ delivered calls = b
  | Err e => exists good c rest ws b, fm_chunks f = good ++ c :: rest /\
      enc_chunks lz u d 0 (length (fm_chunks f)) good = OK (ws, b) /\ enc_chunk lz u c = Err e /\
      exists calls ws' off, encodeTo no_errors accept_all lz u d f = Ran calls (OK (ws', Some (WData (DataError off (CModel e))))) /\
      delivered calls = head_bytes f ++ b ++ sigpart c /\ off = (length (head_bytes f) + total plen good + length b + begun c)%nat
  | Panic => r_result (encodeTo no_errors accept_all lz u d f) = Panic
  | Hang => r_result (encodeTo no_errors accept_all lz u d f) = Hang
  end.
Proof.
  rewrite encodeTo_runs. pose proof (runs_mono (groups_of lz u d f) [] bw0 ltac:(constructor)) as M. cbv zeta in M.
  destruct M as (M & _). unfold groups_of in *. cbn [runs] in *.
  destruct (header_acc f bw0 eq_refl) as (s1 & E1 & E2 & E3 & E4). rewrite E1 in *. rewrite runs_app in *.
  unfold encode. set (n := length (fm_chunks f)) in *.
  pose proof (chunks_acc lz u d n (fm_chunks f) 0 ([] ++ []) s1 E2) as A. cbv zeta in A.
  destruct (runs accept_all (chunk_groups lz u d 0 n (fm_chunks f)) ([] ++ []) s1) as [[s2 st2] ws2]; cbn [fst snd] in A.
  destruct (enc_chunks lz u d 0 n (fm_chunks f)) as [[ws b]|e| |]; cbn [obind].
  - destruct A as (-> & A2 & A3 & A4 & _). cbn [runs run item_op] in *. unfold seq in *. rewrite (write_acc _ s2 A2) in *.
    cbn [app] in A4. subst ws2. cbn [finish bw_err encodeError option_map bw_calls]. rewrite app_nil_r. eexists. split; [reflexivity|].
    cbn [fst bw_calls] in M. rewrite delivered_whole by assumption. rewrite asked_app, A3, E3. cbn [bw_calls bw0 asked flat_map app c_arg].
    rewrite app_nil_r. unfold head_bytes. rewrite <- !app_assoc. reflexivity.
  - destruct A as (good & c & rest & ws & b & A1 & A2 & A3 & -> & A5 & A6 & A7). exists good, c, rest, ws, b. repeat split; auto.
    cbn [finish]. unfold encodeError. rewrite A5. cbn [option_map]. do 3 eexists. split; [reflexivity|].
    cbn [fst] in M. rewrite delivered_whole by assumption. rewrite A6, E3, A7, E4. split; [cbn; rewrite <- app_assoc; reflexivity|]. cbn [bw_n bw0]. lia.
  - subst st2. reflexivity.
  - subst st2. reflexivity.
Qed.

(** ** The count *)
Definition D (s : @bw E) : nat := length (delivered (bw_calls s)).
Lemma writes_count w ps : contract w -> forall s, bw_err s = None ->
  let s' := fst (run w (map IWrite ps) s) in
  (bw_n s' + D s = bw_n s + D s')%nat /\ (D s <= D s')%nat.
Proof.
  intros Hw. induction ps as [|p ps IH]; intros s H; cbv zeta; [cbn; lia|].
  cbn [map run]. unfold seq.
  assert (G : item_op w (IWrite p) s = let '(n, e) := w (bw_calls s) p in
      (BW (bw_calls s ++ [Call p n e]) (bw_n s + n) (option_map CWriter e), match e with Some _ => SFail | None => SGo end)).
  { cbn [item_op]. unfold wBytes. rewrite H. reflexivity. }
  rewrite G. clear G. destruct (Hw (bw_calls s) p) as [B _].
  destruct (w (bw_calls s) p) as [n e]; cbn [fst] in B.
  assert (G : forall x, D (BW (bw_calls s ++ [Call p n e]) (bw_n s + n) x) = (D s + n)%nat).
  { intros x. unfold D. cbn [bw_calls]. rewrite delivered_app, app_length. cbn. rewrite app_nil_r, firstn_length. lia. }
  destruct e as [e|]; cbn [option_map fst].
  - rewrite G. cbn [bw_n]. lia.
  - specialize (IH (BW (bw_calls s ++ [Call p n None]) (bw_n s + n) None) eq_refl). cbv zeta in IH. rewrite G in IH. cbn [bw_n] in IH. lia.
Qed.


Lemma chunk_items_ok lz u c b : enc_chunk lz u c = OK b ->
  exists ps, chunk_items lz u c = ICount (plen c) :: map IWrite ps /\ concat ps = b.
Proof.
  unfold enc_chunk, chunk_items, plen. intros H. destruct (payload_bytes (ch_payload c)) as [p|e| |]; try discriminate.
  cbn [obind] in H. unfold raw_write in H. unfold raw_items. cbn [raw_compressed raw_sig raw_payload] in *.
  destruct (negb u && ch_compressed c)%bool; [destruct (lz_enc lz p) as [d|]; [|discriminate]|]; inversion H; subst; clear H.
  - exists [le32 (psig (ch_payload c)); le32 (N.of_nat (length d)); le32 (N.of_nat (length p)); le32 0; d].
    split; [reflexivity|]. cbn [concat]. rewrite app_nil_r. reflexivity.
  - exists [le32 (psig (ch_payload c)); le32 0; le32 (N.of_nat (length p)); le32 0; p].
    split; [reflexivity|]. cbn [concat]. rewrite app_nil_r. reflexivity.
Qed.
Lemma D_whole (s : @bw E) : Forall whole (bw_calls s) -> D s = length (asked (bw_calls s)).
Proof. intros H. unfold D. rewrite delivered_whole by assumption. reflexivity. Qed.
Lemma stopped_D w s s' : stopped w s s' -> Forall whole (bw_calls s') -> (D s <= D s')%nat.
Proof.
  intros (b & la & e & H1 & H2 & H3 & H3' & H4 & H5 & m & H6) H. rewrite (D_whole s' H), H6. unfold D. rewrite H1, delivered_app.
  rewrite (delivered_whole b H2), !app_length. cbn. rewrite app_nil_r, firstn_length. lia.
Qed.
Lemma writes_split w ps s s' : contract w -> agree s s' ->
  let r := run w (map IWrite ps) s in
  (snd r = SGo /\ (exists s1', agree (fst r) s1') /\ D (fst r) = (D s + length (concat ps))%nat) \/
  (snd r = SFail /\ (exists e, bw_err (fst r) = Some (CWriter e)) /\ (D (fst r) <= D s + length (concat ps))%nat).
Proof.
  intros Hw Ha. cbv zeta. assert (O : Forall ok_item (map IWrite ps)).
  { apply Forall_forall. intros x Hx. apply in_map_iff in Hx. destruct Hx as (p & <- & _). split; discriminate. }
  assert (DS : D s = D s').
  { rewrite !D_whole by apply Ha. rewrite (agree_asked _ _ Ha). reflexivity. }
  destruct (writes_acc ps s' (proj1 (proj2 Ha))) as (s1' & E1 & E2 & E3 & E4).
  destruct (run_split w _ Hw O s s' Ha) as [(A1 & A2 & A3)|[(A1 & A2 & A3)|(A1 & A2 & A3 & A4)]]; rewrite E1 in *; cbn [fst snd] in *.
  - left. split; [exact A1|]. split; [eauto|]. rewrite (D_whole (fst (run w (map IWrite ps) s))) by apply A3.
    rewrite (agree_asked _ _ A3), E3, app_length, DS, D_whole by apply Ha. reflexivity.
  - right. split; [exact A1|]. split; [destruct A2 as (bb & la & e & B1 & B2 & B3 & _ & B4 & _); eauto|].
    pose proof (stopped_D _ _ _ A2 A3) as B. rewrite (D_whole s1' A3), E3, app_length in B.
    rewrite DS, (D_whole s') by apply Ha. exact B.
  - congruence.
Qed.
Lemma chunk_count w lz u c b s s' : contract w -> agree s s' -> enc_chunk lz u c = OK b ->
  let r := run w (chunk_items lz u c) s in
  (bw_n (fst r) + D s = bw_n s + D (fst r) + plen c)%nat /\ (D s <= D (fst r) <= D s + length b)%nat /\
  ((snd r = SGo /\ (exists s1', agree (fst r) s1') /\ D (fst r) = (D s + length b)%nat) \/
   (snd r = SFail /\ exists e, bw_err (fst r) = Some (CWriter e))).
Proof.
  intros Hw Ha Hc. destruct (chunk_items_ok lz u c b Hc) as (ps & -> & Hb). cbv zeta.
  set (s1 := BW (bw_calls s) (bw_n s + plen c) None). set (s1' := BW (bw_calls s') (bw_n s' + plen c) None).
  assert (G : run w (ICount (plen c) :: map IWrite ps) s = run w (map IWrite ps) s1).
  { cbn [run item_op]. unfold seq, wAdd. rewrite (proj1 Ha). reflexivity. }
  rewrite G. clear G.
  assert (Ha1 : agree s1 s1').
  { destruct Ha as (H1 & H2 & H3 & H4 & H5 & H6). unfold s1, s1'. repeat split; cbn [bw_n bw_calls bw_err]; auto. }
  pose proof (writes_count w ps Hw s1 eq_refl) as C. cbv zeta in C.
  assert (DS : D s1 = D s) by reflexivity. assert (NS : bw_n s1 = (bw_n s + plen c)%nat) by reflexivity. rewrite DS, NS in C.
  destruct (writes_split w ps s1 s1' Hw Ha1) as [(A1 & A2 & A3)|(A1 & A2 & A3)]; rewrite ?DS, Hb in A3.
  - split; [lia|]. split; [lia|]. left. repeat split; auto.
  - split; [lia|]. split; [lia|]. right. split; auto.
Qed.
Lemma chunks_count w lz u d n cs : contract w -> forall i ws0 s s' ws b, agree s s' ->
  enc_chunks lz u d i n cs = OK (ws, b) ->
  let r := runs w (chunk_groups lz u d i n cs) ws0 s in let t := fst (fst r) in
  exists k, (k <= length cs)%nat /\
    (bw_n t + D s = bw_n s + D t + total plen (firstn k cs))%nat /\
    (D s + total (esize lz u) (firstn (k - 1) cs) <= D t <= D s + total (esize lz u) (firstn k cs))%nat /\
    ((snd (fst r) = SGo /\ (exists s1', agree t s1') /\ k = length cs /\ D t = (D s + total (esize lz u) cs)%nat) \/
     (snd (fst r) = SFail /\ (0 < k)%nat)).
Proof.
  intros Hw. induction cs as [|c cs IH]; intros i ws0 s s' ws b Ha Hc; cbv zeta.
  - exists 0%nat. cbn. repeat split; try lia. left. repeat split; eauto; lia.
  - cbn [enc_chunks] in Hc. destruct (enc_chunk lz u c) as [b1|e| |] eqn:Ec; try discriminate. cbn [obind] in Hc.
    destruct (enc_chunks lz u d (S i) n cs) as [[ws' b']|e| |] eqn:Ecs; try discriminate.
    cbn [chunk_groups runs]. pose proof (chunk_count w lz u c b1 s s' Hw Ha Ec) as C. cbv zeta in C.
    assert (EZ : esize lz u c = length b1) by (unfold esize; rewrite Ec; reflexivity).
    destruct (run w (chunk_items lz u c) s) as [s1 st1]; cbn [fst snd] in C.
    destruct C as (C1 & C2 & [(-> & (s1' & C3) & C4)|(-> & C3)]).
    + destruct (IH (S i) (ws0 ++ enc_warns u d i n c) s1 s1' ws' b' C3 Ecs) as (k & K1 & K2 & K3 & K4). cbv zeta in K4.
      exists (S k). cbn [length firstn Nat.sub]. rewrite Nat.sub_0_r.
      assert (T1 : forall f l, total f (c :: l) = (f c + total f l)%nat) by reflexivity.
      split; [lia|]. split; [rewrite T1; lia|]. split.
      * rewrite (T1 _ (firstn k cs)), EZ. split; [|lia]. destruct k as [|k]; [cbn [firstn]; change (total (esize lz u) []) with 0%nat; lia|].
        cbn [firstn]. rewrite T1, EZ. cbn [Nat.sub] in K3. rewrite Nat.sub_0_r in K3. lia.
      * destruct K4 as [(L1 & L2 & L3 & L4)|(L1 & L2)]; [left|right; split; [exact L1|lia]]. repeat split; auto. rewrite T1, EZ. lia.
    + exists 1%nat. cbn [fst snd firstn Nat.sub]. change (total plen [c]) with (plen c + 0)%nat. change (total (esize lz u) [c]) with (esize lz u c + 0)%nat.
      change (total (esize lz u) []) with 0%nat. cbn [length]. rewrite EZ. repeat split; try lia. right. split; [reflexivity|lia].
Qed.
Lemma head_length f : length (head_bytes f) = 32.
Proof. unfold head_bytes, le16, le32, le64. rewrite !app_length, !le_bytes_length. reflexivity. Qed.
Lemma offset_exact w lz u d f ws b ws' off c : contract w ->
  encode lz u d f = OK (ws, b) ->
  r_result (encodeTo no_errors w lz u d f) = OK (ws', Some (WData (DataError off c))) ->
  let got := length (delivered (r_calls (encodeTo no_errors w lz u d f))) in
  exists k, (k <= length (fm_chunks f))%nat /\
    off = (got + total plen (firstn k (fm_chunks f)))%nat /\
    ((0 < k)%nat -> (32 + total (esize lz u) (firstn (k - 1) (fm_chunks f)) <= got)%nat) /\
    ((k < length (fm_chunks f))%nat -> (got <= 32 + total (esize lz u) (firstn k (fm_chunks f)))%nat).
Proof.
  intros Hw He. rewrite encodeTo_runs. unfold groups_of. cbn [runs].
  unfold encode in He. set (n := length (fm_chunks f)) in *.
  destruct (enc_chunks lz u d 0 n (fm_chunks f)) as [[ws1 b1]|e| |] eqn:Ec; try discriminate.
  assert (HI : header_items f = map IWrite [robloxSig ++ binaryMarker ++ binaryHeader; le16 (fm_version f); le32 (fm_classCount f);
     le32 (fm_instCount f); le64 0]) by reflexivity.
  assert (G : concat [robloxSig ++ binaryMarker ++ binaryHeader; le16 (fm_version f); le32 (fm_classCount f);
     le32 (fm_instCount f); le64 0] = head_bytes f).
  { unfold head_bytes. cbn [concat]. rewrite app_nil_r, <- !app_assoc. reflexivity. }
  rewrite HI.
  match goal with |- context [run w (map IWrite ?ps) bw0] => 
    pose proof (writes_count w ps Hw bw0 eq_refl) as C; pose proof (writes_split w ps bw0 bw0 Hw agree0) as S1 end.
  rewrite G, head_length in S1. cbv zeta in C, S1.
  destruct (run w (map IWrite _) bw0) as [s1 st1]; cbn [fst snd] in C, S1. change (D bw0) with 0%nat in *. change (bw_n bw0) with 0%nat in C.
  assert (FIN : forall s x, bw_n s = (D s + x)%nat -> forall st wss, (st = SGo \/ st = SFail) ->
     r_result (finish no_errors (s, st, wss)) = OK (ws', Some (WData (DataError off c))) ->
     off = (length (delivered (r_calls (finish no_errors (s, st, wss)))) + x)%nat).
  { intros s x Hx st wss Hst Hr. assert (r_calls (finish no_errors (s, st, wss)) = bw_calls s) as -> by (destruct st; reflexivity).
    assert (Hr' : encodeError no_errors s = Some (DataError off c)).
    { destruct Hst; subst st; cbn in Hr; destruct (encodeError no_errors s); inversion Hr; reflexivity. }
    unfold encodeError in Hr'. fold (D s). destruct (bw_err s) as [[e|e]|]; try discriminate; [destruct (no_errors e); try discriminate|];
    inversion Hr'; subst; assumption. }
  assert (CALLS : forall s st wss, length (delivered (r_calls (finish no_errors (s, st, wss)))) = D s) by (intros s st; destruct st; reflexivity).
  destruct S1 as [(-> & (s1' & S1) & S2)|(-> & S1 & S2)].
  2:{ intros Hr. exists 0%nat. cbn [firstn]. change (total plen []) with 0%nat. split; [lia|]. split; [apply FIN; [lia|auto|assumption]|].
      split; [lia|]. intros _. rewrite CALLS. change (total (esize lz u) []) with 0%nat. lia. }
  rewrite runs_app. pose proof (chunks_count w lz u d n (fm_chunks f) Hw 0 ([] ++ []) s1 s1' ws1 b1 S1 Ec) as K. cbv zeta in K.
  destruct (runs w (chunk_groups lz u d 0 n (fm_chunks f)) ([] ++ []) s1) as [[s2 st2] ws2]; cbn [fst snd] in K.
  destruct K as (k & K1 & K2 & K3 & [(-> & (s2' & K4) & K5 & K6)|(-> & K4)]).
  - cbn [runs]. pose proof (writes_count w [fm_trailing f] Hw s2 (proj1 K4)) as C2. cbn [map] in C2. cbv zeta in C2.
    pose proof (writes_split w [fm_trailing f] s2 s2' Hw K4) as S4. cbv zeta in S4. cbn [map] in S4.
    destruct (run w [IWrite (fm_trailing f)] s2) as [s3 st3]; cbn [fst snd] in *.
    intros Hr. exists k. 
    destruct S4 as [(-> & _)|(-> & _)]; cbn [runs] in *.
    + split; [exact K1|]. split; [apply FIN; [lia|auto|assumption]|]. rewrite CALLS. split; [|lia].
      intros _. lia.
    + split; [exact K1|]. split; [apply FIN; [lia|auto|assumption]|]. rewrite CALLS. split; [|lia].
      intros _. lia.
  - intros Hr. exists k. split; [exact K1|]. split; [apply FIN; [lia|auto|assumption]|]. rewrite CALLS. lia.
Qed.
End S.
