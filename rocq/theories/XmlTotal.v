(** XmlTotal.v - the XML parser returns for every input: no loop runs out of
    fuel, no slice is out of range. *)
From Verif Require Import Base XmlText XmlDoc.

Definition len (s : dst) : nat := length (d_in s).
Definition stk (s : dst) : list Z := c_stack (d_ctx s).
(** s' is later than s: no more input left, same stack. *)
Definition later (s s' : dst) : Prop := len s' <= len s /\ stk s' = stk s.
Definition strictly (s s' : dst) : Prop := len s' < len s /\ stk s' = stk s.

Lemma later_refl s : later s s.  Proof. split; auto. Qed.
Lemma later_trans a b c : later a b -> later b c -> later a c.
Proof. intros [? ?] [? ?]. split; [lia|congruence]. Qed.
Lemma strictly_later a b : strictly a b -> later a b.
Proof. intros [? ?]. split; [lia|auto]. Qed.
Lemma strictly_l a b c : strictly a b -> later b c -> strictly a c.
Proof. intros [? ?] [? ?]. split; [lia|congruence]. Qed.
Lemma strictly_r a b c : later a b -> strictly b c -> strictly a c.
Proof. intros [? ?] [? ?]. split; [lia|congruence]. Qed.

Lemma getc_spec s ob s' : getc s = (ob, s') ->
  match ob with
  | Some b => strictly s s' /\ d_err s = None /\ d_err s' = None /\ later s (ungetc b s') /\ d_in s = b :: d_in s'
  | None => later s s' /\ d_err s' <> None
  end.
Proof.
  unfold getc. destruct (d_err s) eqn:E.
  - intros [= <- <-]. split; [apply later_refl|congruence].
  - destruct (d_in s) eqn:I; intros [= <- <-]; cbn.
    + split; [split; cbn; auto|discriminate].
    + repeat split; auto; unfold len; rewrite ?I; cbn; lia.
Qed.
Lemma mustgetc_spec s ob s' : mustgetc s = (ob, s') ->
  match ob with
  | Some b => strictly s s' /\ d_err s = None /\ d_err s' = None /\ later s (ungetc b s') /\ d_in s = b :: d_in s'
  | None => later s s' /\ d_err s' <> None
  end.
Proof.
  unfold mustgetc. destruct (getc s) as [[b|] s1] eqn:G; pose proof (getc_spec _ _ _ G) as H.
  - intros [= <- <-]. exact H.
  - intros [= <- <-]. destruct H as [H1 H2].
    destruct (d_err s1) as [[]|] eqn:E; (split; [exact H1|]); cbn; try congruence.
Qed.

Lemma unget_list_len l s : len (fold_left (fun s b => ungetc b s) l s) = length l + len s.
Proof. revert s; induction l as [|b l IH]; intros s; cbn; [reflexivity|]. rewrite IH. unfold len, ungetc. cbn. lia. Qed.
Lemma unget_list_stk l s : stk (fold_left (fun s b => ungetc b s) l s) = stk s.
Proof. revert s; induction l as [|b l IH]; intros s; cbn; [reflexivity|]. now rewrite IH. Qed.
Lemma ungetc_len b s : len (ungetc b s) = S (len s).  Proof. reflexivity. Qed.
Lemma ungetc_stk b s : stk (ungetc b s) = stk s.  Proof. reflexivity. Qed.

Lemma match_from_spec want : forall read s m s', match_from read want s = (m, s') ->
  len s' <= length read + len s /\ stk s' = stk s /\ (m = true -> len s' <= len s).
Proof.
  induction want as [|c want IH]; intros read s m s'; cbn [match_from].
  - intros [= <- <-]. repeat split; lia.
  - destruct (getc s) as [[b|] s1] eqn:G; pose proof (getc_spec _ _ _ G) as H.
    + destruct H as ((Hl & Hs) & _).
      destruct (Byte.eqb b c).
      * intros E. destruct (IH _ _ _ _ E) as (H1 & H2 & H3). cbn in H1. repeat split; [lia|congruence|]. intros Hm. specialize (H3 Hm). lia.
      * intros [= <- <-]. rewrite unget_list_len, unget_list_stk, ungetc_len, ungetc_stk. repeat split; [lia|auto|discriminate].
    + intros [= <- <-]. destruct H as [[? ?] ?]. repeat split; [lia|auto|discriminate].
Qed.
Lemma match_spec want s m s' : match_ want s = (m, s') -> later s s'.
Proof. intros H. destruct (match_from_spec _ _ _ _ _ H) as (H1 & H2 & _). split; auto. Qed.

Ltac use_getc H :=
  match goal with
  | |- context [getc ?s] =>
      let G := fresh "G" in destruct (getc s) as [[?b|] ?s1] eqn:G;
      pose proof (getc_spec _ _ _ G) as H; cbn beta iota in H; clear G
  | |- context [mustgetc ?s] =>
      let G := fresh "G" in destruct (mustgetc s) as [[?b|] ?s1] eqn:G;
      pose proof (mustgetc_spec _ _ _ G) as H; cbn beta iota in H; clear G
  end.

(** [ran m s R]: m finishes normally in a state later than s that satisfies R *)
Definition ran {A} (m : xm A) (s : dst) (R : A -> dst -> Prop) : Prop :=
  exists a s', m = OK (a, s') /\ later s s' /\ R a s'.
Definition any {A} : A -> dst -> Prop := fun _ _ => True.

Lemma readSpace_loop_ran fuel : forall buf s, len s < fuel -> ran (readSpace_loop fuel buf s) s any.
Proof.
  induction fuel as [|fuel IH]; intros buf s Hf; [lia|]. cbn [readSpace_loop].
  use_getc H.
  - destruct H as (Hs & _ & _ & Hu & _). destruct (isSpace b).
    + destruct (IH (buf ++ [b]) s1) as (a & s' & E & L & R); [destruct Hs; lia|].
      exists a, s'. rewrite E. repeat split; [|apply (later_trans _ _ _ (strictly_later _ _ Hs) L)..].
      eapply later_trans; [apply (strictly_later _ _ Hs)|exact L].
    + eexists _, _; split; [reflexivity|]. split; [exact Hu|exact I].
  - destruct H as [H _]. eexists _, _; split; [reflexivity|]. split; [exact H|exact I].
Qed.
Lemma readSpace_ran s : ran (readSpace s) s any.
Proof. apply readSpace_loop_ran. unfold fuel_of, len. lia. Qed.
Lemma space_loop_ran fuel : forall s, len s < fuel -> ran (space_loop fuel s) s any.
Proof.
  induction fuel as [|fuel IH]; intros s Hf; [lia|]. cbn [space_loop].
  use_getc H.
  - destruct H as (Hs & _ & _ & Hu & _). destruct (isSpace b).
    + destruct (IH s1) as (a & s' & E & L & R); [destruct Hs; lia|].
      exists a, s'. rewrite E. split; [reflexivity|]. split; [|exact I]. eapply later_trans; [apply (strictly_later _ _ Hs)|exact L].
    + eexists _, _; split; [reflexivity|]. split; [exact Hu|exact I].
  - destruct H as [H _]. eexists _, _; split; [reflexivity|]. split; [exact H|exact I].
Qed.
Lemma space_ran s : ran (space s) s any.
Proof. apply space_loop_ran. unfold fuel_of, len. lia. Qed.

(** -1 comes with an error. *)
Definition stated (st : Z) (s : dst) : Prop := ((st < 0)%Z -> d_err s <> None).
Lemma ignore_loop_ran fuel : forall s, len s < fuel -> ran (ignore_loop fuel s) s stated.
Proof.
  induction fuel as [|fuel IH]; intros s Hf; [lia|]. cbn [ignore_loop].
  use_getc H.
  - destruct H as (Hs & _). destruct (Byte.eqb b x3e).
    + eexists _, _; split; [reflexivity|]. split; [now apply strictly_later|]. unfold stated; lia.
    + destruct (IH s1) as (a & s' & E & L & R); [destruct Hs; lia|].
      exists a, s'. rewrite E. split; [reflexivity|]. split; [|exact R]. eapply later_trans; [apply (strictly_later _ _ Hs)|exact L].
  - destruct H as [H He]. eexists _, _; split; [reflexivity|]. split; [exact H|]. intros _. exact He.
Qed.
Lemma ignoreStartTag_ran e s : ran (ignoreStartTag e s) s stated.
Proof.
  unfold ignoreStartTag. destruct (ignore_loop_ran (fuel_of (add_warn s e)) (add_warn s e)) as (a & s' & E & L & R).
  { unfold fuel_of, len. lia. }
  exists a, s'. split; [exact E|]. split; [exact L|exact R].
Qed.
Lemma comment_loop_ran fuel : forall buf s, len s < fuel ->
  ran (comment_loop fuel buf s) s (fun r s' => r = None -> d_err s' <> None).
Proof.
  induction fuel as [|fuel IH]; intros buf s Hf; [lia|]. cbn [comment_loop].
  use_getc H.
  - destruct H as (Hs & _).
    destruct (if Byte.eqb b x2d then match_ (str "->") s1 else (false, s1)) as [m s2] eqn:M.
    assert (L2 : later s1 s2).
    { destruct (Byte.eqb b x2d); [now apply match_spec in M|]. injection M as <- <-. apply later_refl. }
    pose proof (strictly_l _ _ _ Hs L2) as Hs2. destruct m.
    + eexists _, _; split; [reflexivity|]. split; [now apply strictly_later|discriminate].
    + destruct (IH (buf ++ [b]) s2) as (a & s' & E & L & R); [destruct Hs2; lia|].
      exists a, s'. rewrite E. split; [reflexivity|]. split; [|exact R]. eapply later_trans; [apply (strictly_later _ _ Hs2)|exact L].
  - destruct H as [H He]. eexists _, _; split; [reflexivity|]. split; [exact H|]. intros _. exact He.
Qed.
Lemma readName_loop_ran fuel k : forall buf s, len s < fuel -> ran (readName_loop fuel k buf s) s any.
Proof.
  induction fuel as [|fuel IH]; intros buf s Hf; [lia|]. cbn [readName_loop].
  use_getc H.
  - destruct H as (Hs & _ & _ & Hu & _). destruct (isNameByte k b).
    + destruct (IH (buf ++ [b]) s1) as (a & s' & E & L & R); [destruct Hs; lia|].
      exists a, s'. rewrite E. split; [reflexivity|]. split; [|exact I]. eapply later_trans; [apply (strictly_later _ _ Hs)|exact L].
    + eexists _, _; split; [reflexivity|]. split; [exact Hu|exact I].
  - destruct H as [H He]. eexists _, _; split; [reflexivity|]. split; [exact H|exact I].
Qed.
Lemma readName_ran k buf s : ran (readName k buf s) s (fun r s' => fst r = true -> strictly s s').
Proof.
  unfold readName. use_getc H.
  - destruct H as (Hs & _ & _ & Hu & _). destruct (isNameByte k b).
    + destruct (readName_loop_ran (fuel_of s1) k (buf ++ [b]) s1) as (a & s' & E & L & R); [unfold fuel_of, len; lia|].
      exists a, s'. rewrite E. split; [reflexivity|]. split; [eapply later_trans; [apply (strictly_later _ _ Hs)|exact L]|].
      intros _. eapply strictly_l; eassumption.
    + eexists _, _; split; [reflexivity|]. split; [exact Hu|discriminate].
  - destruct H as [H He]. eexists _, _; split; [reflexivity|]. split; [exact H|discriminate].
Qed.
Lemma name_ran k s : ran (name k s) s (fun r s' => r <> None -> strictly s s').
Proof.
  unfold name. destruct (readName_ran k [] s) as ([ok buf] & s' & E & L & R). rewrite E. cbn.
  eexists _, _; split; [reflexivity|]. split; [exact L|]. destruct ok; [intros _; now apply R|congruence].
Qed.
Lemma digits_loop_ran fuel hex : forall b acc s, S (len s) < fuel -> ran (digits_loop fuel hex b acc s) s
  (fun r s' => match r with Some (_, c) => len (ungetc c s') <= S (len s) | None => d_err s' <> None end).
Proof.
  induction fuel as [|fuel IH]; intros b acc s Hf; [lia|]. cbn [digits_loop].
  destruct (is_digit hex b).
  - use_getc H.
    + destruct H as (Hs & _). destruct (IH b0 (acc ++ [b]) s1) as (a & s' & E & L & R); [destruct Hs; lia|].
      exists a, s'. rewrite E. split; [reflexivity|]. split; [eapply later_trans; [apply (strictly_later _ _ Hs)|exact L]|].
      destruct a as [[ds c]|]; [|exact R]. destruct Hs. lia.
    + destruct H as [H He]. eexists _, _; split; [reflexivity|]. split; [exact H|exact He].
  - eexists _, _; split; [reflexivity|]. split; [apply later_refl|]. rewrite ungetc_len. lia.
Qed.
Lemma read_entity_ran buf s : ran (read_entity buf s) s any.
Proof.
  unfold read_entity. use_getc H.
  2:{ destruct H as [H He]. eexists _, _; split; [reflexivity|]. split; [exact H|exact I]. }
  destruct H as (Hs & _ & _ & Hu & _). destruct (Byte.eqb b x23).
  - use_getc H.
    2:{ destruct H as [H He]. eexists _, _; split; [reflexivity|]. split; [|exact I]. eapply later_trans; [apply (strictly_later _ _ Hs)|exact H]. }
    destruct H as (Hs2 & _). pose proof (strictly_l _ _ _ Hs (strictly_later _ _ Hs2)) as L2.
    destruct (if Byte.eqb b0 x78 then mustgetc s0 else (Some b0, s0)) as [ob s3] eqn:M.
    assert (L3 : later s0 s3).
    { destruct (Byte.eqb b0 x78); [|injection M as <- <-; apply later_refl].
      apply mustgetc_spec in M. destruct ob; [apply strictly_later|]; apply M. }
    pose proof (strictly_l _ _ _ L2 L3) as L4.
    destruct ob as [b'|].
    2:{ eexists _, _; split; [reflexivity|]. split; [now apply strictly_later|exact I]. }
    destruct (digits_loop_ran (S (fuel_of s3)) (Byte.eqb b0 x78) b' [] s3) as (a & s' & E & L & R); [unfold fuel_of, len; lia|].
    rewrite E. cbn [obind]. destruct a as [[ds c]|].
    2:{ eexists _, _; split; [reflexivity|]. split; [|exact I]. eapply later_trans; [apply (strictly_later _ _ L4)|exact L]. }
    assert (L5 : later s s') by (eapply later_trans; [apply (strictly_later _ _ L4)|exact L]).
    destruct (Byte.eqb c x3b).
    + destruct (ParseUint _ _ _); [destruct (_ <=? _)%N|..]; eexists _, _; (split; [reflexivity|]); (split; [exact L5|exact I]).
    + eexists _, _; split; [reflexivity|]. split; [|exact I].
      split; [|rewrite ungetc_stk; apply L5]. destruct L4. lia.
  - destruct (readName_ran NameEntity [] (ungetc b s1)) as ([ok nm] & s2 & E & L & R). rewrite E. cbn [obind].
    assert (L2 : later s s2) by (eapply later_trans; eassumption).
    assert (HN : ran (match mustgetc s2 with
      | (Some b0, s3) => if Byte.eqb b0 x3b then match entity nm with Some r => OK (Some (buf ++ [r]), s3) | None => OK (Some (buf ++ x26 :: nm ++ [x3b]), s3) end
                        else OK (Some (buf ++ x26 :: nm), ungetc b0 s3)
      | (None, s3) => OK (None, s3) end) s any).
    { use_getc H.
      - destruct H as (Hs2 & _ & _ & Hu2 & _). assert (L3 : later s s0) by (eapply later_trans; [exact L2|now apply strictly_later]).
        destruct (Byte.eqb b0 x3b); [destruct (entity nm)|]; eexists _, _; (split; [reflexivity|]); (split; [|exact I]); try exact L3.
        exact (later_trans _ _ _ L2 Hu2).
      - destruct H as [H He]. eexists _, _; split; [reflexivity|]. split; [|exact I]. exact (later_trans _ _ _ L2 H). }
    destruct ok; [exact HN|]. destruct (d_err s2); [|exact HN].
    eexists _, _; split; [reflexivity|]. split; [exact L2|exact I].
Qed.
(** In a CDATA section the two bytes before the end are in the buffer. *)
Definition pending (cdata : bool) (b0 b1 : byte) (buf : bytes) : Prop :=
  cdata = true -> (b1 <> x5d \/ 1 <= length buf) /\ (b0 <> x5d \/ b1 <> x5d \/ 2 <= length buf).
Lemma text_loop_ran fuel quote cdata : forall b0 b1 buf s, len s < fuel -> pending cdata b0 b1 buf ->
  ran (text_loop fuel quote cdata b0 b1 buf s) s (fun r s' => r = None -> quote <> None \/ d_err s' <> None \/ True).
Proof.
  induction fuel as [|fuel IH]; intros b0 b1 buf s Hf Hp; [lia|]. cbn [text_loop].
  use_getc H.
  2:{ destruct H as [H He]. destruct cdata; eexists _, _; (split; [reflexivity|]); (split; [|tauto]); [|exact H].
      destruct (d_err s1) as [[]|]; exact H. }
  destruct H as (Hs & _ & _ & Hu & _).
  set (closes := (Byte.eqb b0 x5d && Byte.eqb b1 x5d && Byte.eqb b x3e)%bool).
  destruct (closes && cdata) eqn:C1.
  { apply andb_prop in C1 as [C1 ->]. unfold closes in C1.
    apply andb_prop in C1 as [C1 _]. apply andb_prop in C1 as [Ca Cb].
    apply Byte.byte_dec_bl in Ca, Cb. destruct (Hp eq_refl) as [_ [Hx|[Hx|Hx]]]; try congruence.
    destruct (Nat.ltb_spec (length buf) 2); [lia|].
    eexists _, _; split; [reflexivity|]. split; [now apply strictly_later|tauto]. }
  destruct (closes && (match quote with None => true | Some _ => false end)).
  { eexists _, _; split; [reflexivity|]. split; [|tauto]. apply strictly_later in Hs. exact Hs. }
  destruct (Byte.eqb b x3c && negb cdata && (match quote with None => true | Some _ => false end)).
  { eexists _, _; split; [reflexivity|]. split; [exact Hu|tauto]. }
  destruct (match quote with Some q => Byte.eqb b q | None => false end).
  { eexists _, _; split; [reflexivity|]. split; [now apply strictly_later|tauto]. }
  destruct (Byte.eqb b x26 && negb cdata) eqn:C2.
  - destruct (read_entity_ran buf s1) as (a & s2 & E & L & _). rewrite E. cbn [obind].
    pose proof (strictly_l _ _ _ Hs L) as L2. destruct a as [buf'|].
    2:{ eexists _, _; split; [reflexivity|]. split; [now apply strictly_later|tauto]. }
    destruct (IH x00 x00 buf' s2) as (a & s' & E2 & L3 & R); [destruct L2; lia| |].
    { intros _. split; left; discriminate. }
    exists a, s'. rewrite E2. split; [reflexivity|]. split; [|exact R]. eapply later_trans; [apply (strictly_later _ _ L2)|exact L3].
  - edestruct (IH b1 b) as (a & s' & E2 & L3 & R); [|shelve|].
    { instantiate (1 := s1). destruct Hs; lia. }
    exists a, s'. split; [exact E2|]. split; [|exact R]. eapply later_trans; [apply (strictly_later _ _ Hs)|exact L3].
    Unshelve.
    intros ->. destruct (Hp eq_refl) as [H1 H2].
    destruct (Byte.eqb b x0d) eqn:D1.
    + apply Byte.byte_dec_bl in D1 as ->. split; [left; discriminate|]. right; left. discriminate.
    + destruct (Byte.eqb b1 x0d && Byte.eqb b x0a) eqn:D2.
      * apply andb_prop in D2 as [D2 D3]. apply Byte.byte_dec_bl in D2, D3. subst. split; [left; discriminate|]. left; discriminate.
      * rewrite app_length. cbn. split; [right; lia|]. destruct H1; [left; assumption|right; right; lia].
Qed.
Lemma text_ran quote cdata s : ran (text quote cdata s) s any.
Proof.
  unfold text. destruct (text_loop_ran (fuel_of s) quote cdata x00 x00 [] s) as (a & s' & E & L & _).
  - unfold fuel_of, len. lia.
  - intros _. split; left; discriminate.
  - exists a, s'. split; [exact E|]. split; [exact L|exact I].
Qed.
Lemma attrval_ran s : ran (attrval s) s any.
Proof.
  unfold attrval. use_getc H.
  - destruct H as (Hs & _). destruct (Byte.eqb b x22).
    + destruct (text_ran (Some b) false s1) as (a & s' & E & L & _). rewrite E. eexists _, _; split; [reflexivity|].
      split; [|exact I]. exact (later_trans _ _ _ (strictly_later _ _ Hs) L).
    + eexists _, _; split; [reflexivity|]. split; [|exact I]. exact (strictly_later _ _ Hs).
  - destruct H as [H He]. eexists _, _; split; [reflexivity|]. split; [exact H|exact I].
Qed.

(** A failed text or attribute value leaves an error. *)
Lemma readName_err k buf s ok nm s' : readName k buf s = OK (ok, nm, s') -> ok = true -> d_err s' = None.
Proof.
  assert (HL : forall fuel buf s nm s', readName_loop fuel k buf s = OK (true, nm, s') -> d_err s' = None).
  { clear. induction fuel as [|fuel IH]; intros buf s nm s'; cbn [readName_loop]; [discriminate|].
    use_getc H; [|discriminate]. destruct H as (_ & _ & He & _).
    destruct (isNameByte k b); [apply IH|]. intros [= <- <-]. exact He. }
  unfold readName. use_getc H; [|intros [= <- <- <-]; discriminate].
  destruct (isNameByte k b); [|intros [= <- <- <-]; discriminate].
  intros E ->. exact (HL _ _ _ _ _ E).
Qed.
Lemma digits_loop_err fuel hex : forall b acc s s', digits_loop fuel hex b acc s = OK (None, s') -> d_err s' <> None.
Proof.
  induction fuel as [|fuel IH]; intros b acc s s'; cbn [digits_loop]; [discriminate|].
  destruct (is_digit hex b); [|discriminate]. use_getc H; [apply IH|]. intros [= <-]. apply H.
Qed.
Lemma read_entity_err buf s s' : read_entity buf s = OK (None, s') -> d_err s' <> None.
Proof.
  unfold read_entity. use_getc H; [|intros [= <-]; apply H].
  destruct (Byte.eqb b x23).
  - use_getc H2; [|intros [= <-]; apply H2].
    destruct (if Byte.eqb b0 x78 then mustgetc s0 else (Some b0, s0)) as [ob s3] eqn:M.
    destruct ob as [b'|].
    + destruct (digits_loop _ _ _ _ _) as [[[[ds c]|] s4]|e| |] eqn:E; cbn [obind]; try discriminate.
      * destruct (Byte.eqb c x3b); [destruct (ParseUint _ _ _); [destruct (_ <=? _)%N|..]|]; discriminate.
      * intros [= <-]. exact (digits_loop_err _ _ _ _ _ _ E).
    + intros [= <-]. destruct (Byte.eqb b0 x78); [|discriminate]. apply mustgetc_spec in M. apply M.
  - destruct (readName_ran NameEntity [] (ungetc b s1)) as ([ok nm] & s2 & E & _). rewrite E. cbn [obind].
    assert (HN : (match mustgetc s2 with
      | (Some b0, s3) => if Byte.eqb b0 x3b then match entity nm with Some r => OK (Some (buf ++ [r]), s3) | None => OK (Some (buf ++ x26 :: nm ++ [x3b]), s3) end
                        else OK (Some (buf ++ x26 :: nm), ungetc b0 s3)
      | (None, s3) => OK (None, s3) end : xm (option bytes)) = OK (None, s') -> d_err s' <> None).
    { use_getc H3; [|intros [= <-]; apply H3]. destruct (Byte.eqb b0 x3b); [destruct (entity nm)|]; discriminate. }
    destruct ok; [exact HN|]. destruct (d_err s2) eqn:E2; [|exact HN]. intros [= <-]. congruence.
Qed.
Lemma text_loop_err fuel quote cdata : forall b0 b1 buf s s',
  text_loop fuel quote cdata b0 b1 buf s = OK (None, s') -> d_err s' <> None.
Proof.
  induction fuel as [|fuel IH]; intros b0 b1 buf s s'; cbn [text_loop]; [discriminate|].
  use_getc H.
  2:{ destruct cdata; [|discriminate]. intros [= <-]. destruct H as [_ H].
      destruct (d_err s1) as [[]|] eqn:E; cbn; try discriminate; rewrite ?E; exact H. }
  destruct (_ && _ && _ && cdata); [destruct (_ <? _)%nat; discriminate|].
  destruct (_ && _ && _ && _); [intros [= <-]; discriminate|].
  destruct (_ && _ && _); [discriminate|].
  destruct (match quote with Some q => Byte.eqb b q | None => false end); [discriminate|].
  destruct (_ && _); [|apply IH].
  destruct (read_entity buf s1) as [[[bf|] s2]|e| |] eqn:E; cbn [obind]; try discriminate; [apply IH|].
  intros [= <-]. exact (read_entity_err _ _ _ E).
Qed.
Lemma attrval_err s s' : attrval s = OK (None, s') -> d_err s' <> None.
Proof.
  unfold attrval. use_getc H; [|intros [= <-]; apply H].
  destruct (Byte.eqb b x22); [apply text_loop_err|]. intros [= <-]. discriminate.
Qed.

Lemma attrs_loop_ran fuel : forall attrs s, len s < fuel ->
  ran (attrs_loop fuel attrs s) s (fun r s' => stated (fst (fst r)) s').
Proof.
  induction fuel as [|fuel IH]; intros attrs s Hf; [lia|]. cbn [attrs_loop].
  destruct (space_ran s) as ([] & s0 & E0 & L0 & _). rewrite E0. cbn [obind].
  use_getc H.
  2:{ destruct H as [H He]. eexists _, _; split; [reflexivity|]. split; [exact (later_trans _ _ _ L0 H)|]. intros _. exact He. }
  destruct H as (Hs & _ & _ & Hu & _). pose proof (strictly_r _ _ _ L0 Hs) as S1.
  pose proof (later_trans _ _ _ L0 Hu) as Lu.
  destruct (Byte.eqb b x2f).
  { use_getc H.
    2:{ destruct H as [H He]. eexists _, _; split; [reflexivity|]. split; [exact (later_trans _ _ _ (strictly_later _ _ S1) H)|]. intros _. exact He. }
    destruct H as (Hs2 & _). pose proof (strictly_l _ _ _ S1 (strictly_later _ _ Hs2)) as S2.
    destruct (Byte.eqb b0 x3e).
    - eexists _, _; split; [reflexivity|]. split; [exact (strictly_later _ _ S2)|]. unfold stated; cbn; lia.
    - destruct (ignoreStartTag_ran (syntax s2 "expected /> in element") s2) as (a & s' & E & L & R). rewrite E.
      eexists _, _; split; [reflexivity|]. split; [exact (later_trans _ _ _ (strictly_later _ _ S2) L)|exact R]. }
  destruct (Byte.eqb b x3e).
  { eexists _, _; split; [reflexivity|]. split; [exact (strictly_later _ _ S1)|]. unfold stated; cbn; lia. }
  destruct (name_ran NameAttr (ungetc b s1)) as (n & s2 & E & L & R). rewrite E. cbn [obind].
  pose proof (later_trans _ _ _ Lu L) as L2.
  destruct n as [n|].
  2:{ destruct (ignoreStartTag_ran (syntax s2 "expected attribute name in element") s2) as (a & s' & E1 & L1 & R1). rewrite E1.
      eexists _, _; split; [reflexivity|]. split; [exact (later_trans _ _ _ L2 L1)|exact R1]. }
  assert (S2 : strictly s s2).
  { assert (Hsome : Some n <> None) by discriminate. specialize (R Hsome). exact (strictly_r _ _ _ Lu R). }
  destruct (space_ran s2) as ([] & s3 & E3 & L3 & _). rewrite E3. cbn [obind]. pose proof (strictly_l _ _ _ S2 L3) as S3.
  use_getc H.
  2:{ destruct H as [H He]. eexists _, _; split; [reflexivity|]. split; [exact (later_trans _ _ _ (strictly_later _ _ S3) H)|]. intros _. exact He. }
  destruct H as (Hs4 & _). pose proof (strictly_l _ _ _ S3 (strictly_later _ _ Hs4)) as S4.
  destruct (Byte.eqb b0 x3d).
  - destruct (space_ran s4) as ([] & s5 & E5 & L5 & _). rewrite E5. cbn [obind]. pose proof (strictly_l _ _ _ S4 L5) as S5.
    destruct (attrval_ran s5) as (v & s6 & E6 & L6 & _). rewrite E6. cbn [obind]. pose proof (strictly_l _ _ _ S5 L6) as S6.
    destruct v as [v|].
    + destruct (IH (attrs ++ [(n, v)]) s6) as (a & s' & E7 & L7 & R7); [destruct S6; lia|].
      exists a, s'. rewrite E7. split; [reflexivity|]. split; [exact (later_trans _ _ _ (strictly_later _ _ S6) L7)|exact R7].
    + eexists _, _; split; [reflexivity|]. split; [exact (strictly_later _ _ S6)|]. intros _. exact (attrval_err _ _ E6).
  - destruct (ignoreStartTag_ran (syntax s4 "attribute name without = in element") s4) as (a & s' & E1 & L1 & R1). rewrite E1.
    eexists _, _; split; [reflexivity|]. split; [exact (later_trans _ _ _ (strictly_later _ _ S4) L1)|exact R1].
Qed.

Lemma decodeStartTag_ran s : exists st n attrs empty c s', decodeStartTag s = OK (st, n, attrs, empty, c, s') /\
  later s s' /\ stated st s' /\ ((0 <= st)%Z -> strictly s s').
Proof.
  unfold decodeStartTag. use_getc H.
  2:{ destruct H as [H He]. eexists _, _, _, _, _, _. split; [reflexivity|]. split; [exact H|]. split; [intros _; exact He|lia]. }
  destruct H as (Hs & _). pose proof (strictly_later _ _ Hs) as L1.
  destruct (negb (Byte.eqb b x3c)).
  { eexists _, _, _, _, _, _. split; [reflexivity|]. split; [exact L1|]. split; [discriminate|lia]. }
  use_getc H.
  2:{ destruct H as [H He]. eexists _, _, _, _, _, _. split; [reflexivity|]. split; [exact (later_trans _ _ _ L1 H)|]. split; [intros _; exact He|lia]. }
  destruct H as (Hs2 & _ & _ & Hu & _). pose proof (strictly_l _ _ _ Hs (strictly_later _ _ Hs2)) as S2.
  destruct (Byte.eqb b0 x2f).
  { eexists _, _, _, _, _, _. split; [reflexivity|]. split; [exact (strictly_later _ _ S2)|]. split; [discriminate|lia]. }
  destruct (if Byte.eqb b0 x21 then match_ (str "--") s0 else (false, s0)) as [m s3] eqn:M.
  assert (L3 : later s0 s3).
  { destruct (Byte.eqb b0 x21); [now apply match_spec in M|]. injection M as <- <-. apply later_refl. }
  destruct m.
  - destruct (comment_loop_ran (fuel_of s3) [] s3) as (c & s' & E & L & R); [unfold fuel_of, len; lia|]. rewrite E. cbn [obind].
    pose proof (strictly_l _ _ _ S2 (later_trans _ _ _ L3 L)) as S4.
    destruct c as [c|]; eexists _, _, _, _, _, _; (split; [reflexivity|]); (split; [exact (strictly_later _ _ S4)|]).
    + split; [discriminate|]. intros _; exact S4.
    + split; [|lia]. intros _. now apply R.
  - assert (Su : strictly s (ungetc b0 s3)).
    { split; [|rewrite ungetc_stk; destruct L3, S2; congruence]. rewrite ungetc_len. destruct L3, Hs, Hs2. lia. }
    destruct (name_ran NameTag (ungetc b0 s3)) as (n & s4 & E & L & R). rewrite E. cbn [obind].
    pose proof (strictly_l _ _ _ Su L) as S4. destruct n as [n|].
    + destruct (attrs_loop_ran (fuel_of s4) [] s4) as ([[st at_] em] & s' & E5 & L5 & R5); [unfold fuel_of, len; lia|].
      rewrite E5. cbn [obind]. pose proof (strictly_l _ _ _ S4 L5) as S5.
      eexists _, _, _, _, _, _. split; [reflexivity|]. split; [exact (strictly_later _ _ S5)|]. split; [exact R5|auto].
    + destruct (ignoreStartTag_ran (syntax s4 "expected element name after <") s4) as (a & s' & E5 & L5 & R5). rewrite E5. cbn [obind].
      pose proof (strictly_l _ _ _ S4 L5) as S5.
      eexists _, _, _, _, _, _. split; [reflexivity|]. split; [exact (strictly_later _ _ S5)|]. split; [exact R5|auto].
Qed.

Lemma cdata_open_spec want : forall read s m s', cdata_open read want s = (m, s') ->
  len s' <= length read + len s /\ stk s' = stk s.
Proof.
  induction want as [|c want IH]; intros read s m s'; cbn [cdata_open].
  - intros [= <- <-]. repeat split; lia.
  - destruct (getc s) as [[b|] s1] eqn:G; pose proof (getc_spec _ _ _ G) as H.
    + destruct H as ((Hl & Hs) & _).
      destruct (Byte.eqb b c).
      * intros E. destruct (IH _ _ _ _ E) as (H1 & H2). cbn in H1. split; [lia|congruence].
      * intros [= <- <-]. rewrite unget_list_len, unget_list_stk, ungetc_len, ungetc_stk. split; [lia|auto].
    + intros [= <- <-]. destruct H as [[? ?] ?]. split; [lia|auto].
Qed.
Lemma decodeCData_ran s : ran (decodeCData s) s any.
Proof.
  unfold decodeCData. destruct (cdata_open [] (str "<![CDATA[") s) as [m s1] eqn:E.
  apply cdata_open_spec in E. assert (L : later s s1) by exact E.
  destruct m as [[]|]; [|eexists _, _; split; [reflexivity|]; split; [exact L|exact I]..].
  destruct (text_ran None true s1) as (t & s2 & E2 & L2 & _). rewrite E2. cbn [obind].
  eexists _, _; split; [reflexivity|]. split; [exact (later_trans _ _ _ L L2)|exact I].
Qed.
Lemma decodeEndTag_ran s : ran (decodeEndTag s) s any.
Proof.
  unfold decodeEndTag. use_getc H.
  2:{ destruct H as [H _]. eexists _, _; split; [reflexivity|]. split; [exact H|exact I]. }
  destruct H as (Hs & _). pose proof (strictly_later _ _ Hs) as L1.
  destruct (negb (Byte.eqb b x3c)); [eexists _, _; split; [reflexivity|]; split; [exact L1|exact I]|].
  use_getc H.
  2:{ destruct H as [H _]. eexists _, _; split; [reflexivity|]. split; [exact (later_trans _ _ _ L1 H)|exact I]. }
  destruct H as (Hs2 & _). pose proof (later_trans _ _ _ L1 (strictly_later _ _ Hs2)) as L2.
  destruct (negb (Byte.eqb b0 x2f)); [eexists _, _; split; [reflexivity|]; split; [exact L2|exact I]|].
  destruct (name_ran NameTag s0) as (n & s3 & E & L3 & _). rewrite E. cbn [obind].
  pose proof (later_trans _ _ _ L2 L3) as L4.
  destruct n as [n|]; [|eexists _, _; split; [reflexivity|]; split; [destruct (d_err s3); exact L4|exact I]].
  destruct (space_ran s3) as ([] & s5 & E5 & L5 & _). rewrite E5. cbn [obind]. pose proof (later_trans _ _ _ L4 L5) as L6.
  use_getc H.
  2:{ destruct H as [H _]. eexists _, _; split; [reflexivity|]. split; [exact (later_trans _ _ _ L6 H)|exact I]. }
  destruct H as (Hs7 & _). pose proof (later_trans _ _ _ L6 (strictly_later _ _ Hs7)) as L7.
  destruct (Byte.eqb b1 x3e); eexists _, _; (split; [reflexivity|]); (split; [exact L7|exact I]).
Qed.
Lemma detect_indent_ran s : ran (detect_indent s) s any.
Proof.
  unfold detect_indent. destruct (readSpace_ran s) as (ind & s1 & E & L & _). rewrite E. cbn [obind].
  destruct (after_newline ind); [destruct (drop_prefix _ _)|]; eexists _, _; (split; [reflexivity|]); (split; [exact L|exact I]).
Qed.


Lemma decodeEndTag_err s n s' : decodeEndTag s = OK (false, n, s') -> d_err s' <> None.
Proof.
  unfold decodeEndTag. use_getc H; [|intros [= <- <-]; apply H].
  destruct (negb _); [intros [= <- <-]; discriminate|].
  use_getc H2; [|intros [= <- <-]; apply H2].
  destruct (negb _); [intros [= <- <-]; discriminate|].
  destruct (name NameTag s0) as [[[m|] s3]| | |]; cbn [obind]; try discriminate.
  - destruct (space s3) as [[[] s4]| | |]; cbn [obind]; try discriminate.
    use_getc H3; [|intros [= <- <-]; apply H3]. destruct (Byte.eqb b1 x3e); [discriminate|]. intros [= <- <-]; discriminate.
  - intros [= <- <-]. destruct (d_err s3) eqn:E; cbn; congruence.
Qed.
Lemma decodeCData_err s cd s' : decodeCData s = OK (false, cd, s') -> d_err s' <> None.
Proof.
  unfold decodeCData. destruct (cdata_open [] (str "<![CDATA[") s) as [[[]|] s6] eqn:EC; [|discriminate|].
  - destruct (text None true s6) as [[[t|] s7]| | |] eqn:ET; cbn [obind]; try discriminate.
    intros [= <- <-]. exact (text_loop_err _ _ _ _ _ _ _ _ ET).
  - intros [= <- <-]. revert EC. generalize (str "<![CDATA["). generalize (@nil byte). intros l w. revert l s.
    induction w as [|x w IH]; intros l s4; cbn [cdata_open]; [discriminate|]. use_getc H.
    + destruct (Byte.eqb b x); [apply IH|discriminate].
    + intros [= <-]. apply H.
Qed.

(** The stack is the same again after a tag, and shorter input is left unless
    there is an error. *)
Definition tag_ran (fuel : nat) : Prop := forall root s, 2 * len s + 2 <= fuel ->
  exists t e s', decodeTag fuel root s = OK (t, e, s') /\ (e = None -> strictly s s').
Definition kids_ran (fuel : nat) : Prop := forall tags s, 2 * len s + 3 <= fuel -> stk s <> [] ->
  exists r e s', kids fuel tags s = OK (r, e, s') /\ (match r with Some _ => later s s' | None => e <> None end).
Lemma tag_kids_ran fuel : tag_ran fuel /\ kids_ran fuel.
Proof.
  induction fuel as [|fuel [IHt IHk]]; [split; intros x s; lia|]. split.
  - intros root s Hf. cbn [decodeTag].
    destruct (d_err s) as [e|] eqn:E0; [eexists _, _, _; split; [reflexivity|]; discriminate|].
    assert (HP : exists p s0, lead_space root s = OK (p, s0) /\ later s s0).
    { unfold lead_space. destruct root; [destruct (readSpace_ran s) as (p & s0 & E & L & _); eauto|exists [], s; split; [reflexivity|apply later_refl]]. }
    destruct HP as (p & s0 & E1 & L0). rewrite E1. cbn [obind].
    set (s1 := if nonempty p then set_prefix s0 p else s0).
    assert (L1 : later s s1) by (unfold s1; destruct (nonempty p); exact L0).
    destruct (decodeStartTag_ran s1) as (st & n & attrs & empty & c & s2 & E2 & L2 & Hst & Hs2). rewrite E2. cbn [obind].
    destruct (Z.ltb_spec st 0) as [Hneg|Hneg].
    { eexists _, _, _; split; [reflexivity|]. intros He. now elim (Hst Hneg). }
    pose proof (strictly_r _ _ _ L1 (Hs2 Hneg)) as S2.
    destruct (Z.eqb_spec st 2); [eexists _, _, _; split; [reflexivity|]; intros _; exact S2|].
    destruct (if root then root_check n attrs s2 else None); [eexists _, _, _; split; [reflexivity|]; discriminate|].
    destruct empty; [eexists _, _, _; split; [reflexivity|]; intros _; exact S2|].
    set (s3 := set_stack s2 (d_line s2 :: c_stack (d_ctx s2))).
    destruct (space_ran s3) as ([] & s4 & E4 & L4 & _). rewrite E4. cbn [obind].
    destruct (decodeCData_ran s4) as ([ok cd] & s5 & E5 & L5 & _). rewrite E5. cbn [obind].
    pose proof (later_trans _ _ _ L4 L5) as L35.
    assert (Hlen3 : len s3 < len s) by apply S2.
    assert (Hstk3 : stk s3 = d_line s2 :: stk s) by (destruct S2 as [_ <-]; reflexivity).
    destruct ok; cbn [negb].
    2:{ eexists _, _, _; split; [reflexivity|]. intros He. now elim (decodeCData_err _ _ _ E5). }
    assert (HN : exists ni s6, content_space root s5 = OK (ni, s6) /\ later s5 s6).
    { unfold content_space. destruct root; [|destruct (_ || _)].
      - destruct (detect_indent_ran s5) as (x & s6 & E & L & _). rewrite E. cbn. eauto.
      - destruct (readSpace_ran s5) as (x & s6 & E & L & _). rewrite E. cbn. eauto.
      - destruct (space_ran s5) as (x & s6 & E & L & _). rewrite E. cbn. eauto. }
    destruct HN as (ni & s6 & E6 & L6). rewrite E6. cbn [obind].
    destruct (text_ran None false s6) as (tx & s7 & E7 & L7 & _). rewrite E7. cbn [obind].
    pose proof (later_trans _ _ _ (later_trans _ _ _ L35 L6) L7) as L37.
    destruct tx as [tx|].
    2:{ eexists _, _, _; split; [reflexivity|]. intros He. now elim (text_loop_err _ _ _ _ _ _ _ _ E7). }
    assert (Hstk7 : stk s7 = d_line s2 :: stk s) by (destruct L37 as [_ ->]; exact Hstk3).
    destruct (IHk [] s7) as (r & e & s8 & E8 & L8); [destruct L37; lia|rewrite Hstk7; discriminate|]. rewrite E8. cbn [obind].
    destruct r as [[tags en]|]; [|eexists _, _, _; split; [reflexivity|]; intros He; now elim L8].
    assert (Hstk8 : c_stack (d_ctx s8) = d_line s2 :: stk s) by (destruct L8 as [_ L8]; etransitivity; [exact L8|exact Hstk7]).
    rewrite Hstk8. eexists _, _, _; split; [reflexivity|]. intros _. split; [|reflexivity].
    cbn. fold (len s8). change (length (d_in s8)) with (len s8). destruct L8, L37. unfold len in *. cbn in *. lia.
  - intros tags s Hf Hne. cbn [kids].
    destruct (space_ran s) as ([] & s0 & E0 & L0 & _). rewrite E0. cbn [obind].
    use_getc H.
    2:{ destruct H as [H He]. eexists _, _, _; split; [reflexivity|]. cbn.
        unfold tag_error. destruct H as [_ H]. destruct L0 as [_ L0]. unfold stk in *.
        rewrite H, L0. destruct (c_stack (d_ctx s)); [congruence|discriminate]. }
    destruct H as (Hs & _ & _ & Hu & Hin). 
    destruct (Byte.eqb b x3c) eqn:Eb; cbn [negb]; [|eexists _, _, _; split; [reflexivity|]; discriminate].
    apply Byte.byte_dec_bl in Eb as ->.
    use_getc H.
    2:{ destruct H as [H He]. eexists _, _, _; split; [reflexivity|]. exact He. }
    destruct H as (Hs2 & _ & _ & Hu2 & Hin2).
    assert (L2 : forall c, later s (ungetc x3c (ungetc c s2))).
    { intros c. split.
      - rewrite !ungetc_len. destruct L0. revert Hin Hin2. unfold len in *. intros Hin Hin2. rewrite Hin, Hin2 in *. cbn in *. lia.
      - rewrite !ungetc_stk. destruct L0, Hs, Hs2. congruence. }
    destruct (Byte.eqb b x2f).
    + destruct (decodeEndTag_ran (ungetc x3c (ungetc x2f s2))) as ([ok n] & s3 & E3 & L3 & _). rewrite E3. cbn [obind].
      destruct ok.
      * eexists _, _, _; split; [reflexivity|]. exact (later_trans _ _ _ (L2 _) L3).
      * eexists _, _, _; split; [reflexivity|]. exact (decodeEndTag_err _ _ _ E3).
    + destruct (IHt false (ungetc x3c (ungetc b s2))) as (t & e & s3 & E3 & L3); [destruct (L2 b); lia|]. rewrite E3. cbn [obind].
      destruct e as [e|]; [eexists _, _, _; split; [reflexivity|]; discriminate|].
      pose proof (strictly_r _ _ _ (L2 b) (L3 eq_refl)) as S3.
      destruct (IHk (match t with Some t => tags ++ [t] | None => tags end) s3) as (r & e & s4 & E4 & L4).
      { destruct S3; lia. } { destruct S3 as [_ ->]. exact Hne. }
      exists r, e, s4. split; [exact E4|]. destruct r; [|exact L4]. exact (later_trans _ _ _ (strictly_later _ _ S3) L4).
Qed.

(** The parser on any input. *)
Lemma ReadFrom_total input e : (exists d, ReadFrom input e = OK d) \/ (exists x, ReadFrom input e = Err x).
Proof.
  unfold ReadFrom. set (s := Dst input None 1 (Ctx e [] [] [] [])).
  destruct (proj1 (tag_kids_ran (2 * length input + 4)) true s) as (t & er & s' & E & _); [unfold s, len; cbn; lia|].
  rewrite E. destruct er; [right|left]; eauto.
Qed.
