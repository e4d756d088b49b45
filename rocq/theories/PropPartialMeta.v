(** PropPartialMeta.v - C95: of a metadata or shared string chunk that breaks
    off inside a value, every entry before it is kept whole, and of the entry
    itself the key (or hash), which had been read. *)
From Verif Require Import Base RbxlValues RbxlArrays RbxlArraysProofs RbxlModel RbxlModelProofs RbxlFile RbxlFileProofs SpecValues SpecArrays SpecModel SpecFile
  RbxlDump RbxlPartial SpecDumpLayout SpecPartial DumpFile PropDecode PropPartial.

(** A string in a file: its length in four bytes, least significant first, and its bytes *)
Definition stored (s : bytes) : bytes := le32 (N.of_nat (length s)) ++ s.
(** A string that breaks off *)
Definition breaks_off (cut : bytes) : Prop := exists v more, len32 v /\ more <> [] /\ cut ++ more = stored v.

Lemma breaks_off_unread cut q : readString cut <> OK q \/ ~ breaks_off cut.
Proof.
  destruct q as [s r]. destruct (readString cut) as [[s' r']|e| |] eqn:E; try (left; discriminate). right. intros (v & more & Hv & Hm & Hc).
  pose proof (readString_more _ _ _ more E) as E1. rewrite Hc in E1. pose proof (readString_app v [] Hv) as E2. rewrite app_nil_r in E2.
  unfold writeString in E2. unfold stored in E1. rewrite E2 in E1. injection E1 as _ Q. symmetry in Q. apply app_eq_nil in Q as [_ Q]. contradiction.
Qed.
Lemma partial_pairs_kept : forall vs n k cut, Forall (fun kv => len32 (fst kv) /\ len32 (snd kv)) vs -> len32 k -> breaks_off cut ->
  partial_pairs (length vs + S n) (flat_map (fun kv => stored (fst kv) ++ stored (snd kv)) vs ++ stored k ++ cut)
  = vs ++ (k, []) :: repeat ([], []) n.
Proof.
  induction vs as [|[a b] vs IH]; intros n k cut Hvs Hk Hcut.
  - cbn [length flat_map app Nat.add partial_pairs]. change (stored k) with (writeString k). rewrite readString_app by exact Hk.
    destruct (readString cut) as [q|e| |] eqn:E; try reflexivity. destruct (breaks_off_unread cut q); [congruence|contradiction].
  - inversion Hvs as [|? ? [Ha Hb] Hr]; subst. cbn [fst snd] in Ha, Hb. cbn [length flat_map Nat.add partial_pairs fst snd].
    change (stored a) with (writeString a). change (stored b) with (writeString b). rewrite <- !app_assoc, readString_app by exact Ha.
    rewrite readString_app by exact Hb. cbn [app]. f_equal. now apply IH.
Qed.
Lemma partial_shared_kept : forall vs n k cut, Forall (fun kv => length (fst kv) = 16 /\ len32 (snd kv)) vs -> length k = 16 -> breaks_off cut ->
  partial_shared (length vs + S n) (flat_map (fun kv => fst kv ++ stored (snd kv)) vs ++ k ++ cut)
  = vs ++ (k, []) :: repeat (repeat x00 16, []) n.
Proof.
  induction vs as [|[a b] vs IH]; intros n k cut Hvs Hk Hcut.
  - cbn [length flat_map app Nat.add partial_shared]. rewrite (rBytes_app 16) by (rewrite Hk; reflexivity).
    destruct (readString cut) as [q|e| |] eqn:E; try reflexivity. destruct (breaks_off_unread cut q); [congruence|contradiction].
  - inversion Hvs as [|? ? [Ha Hb] Hr]; subst. cbn [fst snd] in Ha, Hb. cbn [length flat_map Nat.add partial_shared fst snd].
    change (stored b) with (writeString b). rewrite <- !app_assoc, (rBytes_app 16) by (rewrite Ha; reflexivity).
    rewrite readString_app by exact Hb. cbn [app]. f_equal. now apply IH.
Qed.

Theorem C95_meta : forall spare f i z offset cause vs n k cut,
  nth_error (fm_chunks f) i = Some (Chunk z (PErrored sigMETA offset cause
    (le32 (N.of_nat (length vs + S n)) ++ flat_map (fun kv => stored (fst kv) ++ stored (snd kv)) vs ++ stored k ++ cut))) ->
  (N.of_nat (length vs + S n) < 2 ^ 32)%N -> Forall (fun kv => len32 (fst kv) /\ len32 (snd kv)) vs -> len32 k -> breaks_off cut ->
  partial_of spare f i = PMeta (vs ++ (k, []) :: repeat ([], []) n).
Proof.
  intros spare f i z offset cause vs n k cut Hi Hn Hvs Hk Hc. unfold partial_of. rewrite Hi. unfold partial_payload, partial_meta.
  rewrite N.eqb_refl, rNum4_app by exact Hn. rewrite Nat2N.id. f_equal. now apply partial_pairs_kept.
Qed.
Theorem C95_shared : forall spare f i z offset cause version vs n k cut,
  nth_error (fm_chunks f) i = Some (Chunk z (PErrored sigSSTR offset cause
    (le32 version ++ le32 (N.of_nat (length vs + S n)) ++ flat_map (fun kv => fst kv ++ stored (snd kv)) vs ++ k ++ cut))) ->
  (version < 2 ^ 32)%N -> (N.of_nat (length vs + S n) < 2 ^ 32)%N ->
  Forall (fun kv => length (fst kv) = 16 /\ len32 (snd kv)) vs -> length k = 16 -> breaks_off cut ->
  partial_of spare f i = PSstr version (vs ++ (k, []) :: repeat (repeat x00 16, []) n).
Proof.
  intros spare f i z offset cause version vs n k cut Hi Hv Hn Hvs Hk Hc. unfold partial_of. rewrite Hi. unfold partial_payload, partial_sstr.
  change (sigSSTR =? sigMETA)%N with false. cbn iota. rewrite N.eqb_refl, rNum4_app by exact Hv. rewrite rNum4_app by exact Hn. rewrite Nat2N.id. f_equal. now apply partial_shared_kept.
Qed.
(** A chunk of three pairs that breaks off in the value of the second *)
Definition cut_meta : bytes := le32 3 ++ stored (str "a") ++ stored (str "b") ++ stored (str "key") ++ le32 2 ++ str "x".
Definition cut_meta_file : bytes := file_of 1 2 [PUnknown sigMETA cut_meta; PInst 3 (str "Part") [7; 8]%Z false []; PPrnt 0 [7; 8]%Z [-1; -1]%Z].
Lemma C95_meta_witness : exists f ws st offset cause,
  decode no_lz (fun _ => 0) true cut_meta_file = OK (DModel f, ws, st) /\
  nth_error (fm_chunks f) 0 = Some (Chunk false (PErrored sigMETA offset cause
    (le32 (N.of_nat (1 + 2)) ++ flat_map (fun kv => stored (fst kv) ++ stored (snd kv)) [(str "a", str "b")] ++ stored (str "key") ++ (le32 2 ++ str "x")))) /\
  breaks_off (le32 2 ++ str "x") /\
  partial_of (fun _ => 0) f 0 = PMeta [(str "a", str "b"); (str "key", []); ([], [])].
Proof.
  destruct (decode no_lz (fun _ => 0) true cut_meta_file) as [[[[b|f] ws] st]|?| |] eqn:E; [vm_compute in E; discriminate| |vm_compute in E; discriminate..].
  vm_compute in E. injection E as <- <- <-. eexists _, _, _, _, _. split; [reflexivity|]. split; [vm_compute; reflexivity|].
  split; [|vm_compute; reflexivity]. exists (str "xy"), (str "y"). split; [reflexivity|]. split; [discriminate|reflexivity].
Qed.
Print Assumptions C95_meta.
Print Assumptions C95_shared.
