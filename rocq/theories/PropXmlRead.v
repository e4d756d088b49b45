(** PropXmlRead.v - C75: the values read from the property tags of an XML file. *)
From Verif Require Import Base RbxlValues RbxValues Tree XmlText XmlDoc XmlCodec SpecBase64 PropBase64 SpecXmlText SpecXmlRead XmlGrammar XmlReadProofs XmlReadValues.
Local Notation string := String.string.

Ltac opens H := let E := fresh "G" in
  match type of H with context [getFrom ?fl ?w ?t] => destruct (getFrom fl w t) as [[|] ?v] eqn:E; cbn iota beta in H; [|try discriminate H] end.
Ltac comps G C := match type of G with getFrom ?f ?w ?t = (true, ?v) =>
  assert (C : components (fl_parse32 f) w (t_tags t) (mfind v)) by (apply getFrom_sound; [distinct|exact G]) end.
Ltac fval := match goal with
  | |- float_at (mfind ?v) _ _ => eapply vf_at; [|eassumption|cbn; tauto]; distinct
  | |- int_at (mfind ?v) _ _ => eapply vz_at; [|eassumption|cbn; tauto|discriminate|discriminate]; distinct
  end.

Section Sound.
Variable (env : xenv).
Let fl := xe_fl env.
Let p32 := fl_parse32 fl.
Lemma from_vec3 o t x : get_vec3 env o = (true, x) -> o = Some t -> exists a b c, x = Vec3 a b c /\ floats_in p32 t ["X"; "Y"; "Z"]%string [a; b; c].
Proof.
  unfold get_vec3. intros H ->. cbn [getFrom_opt] in H. opens H. injection H as <-. eexists _, _, _. split; [reflexivity|].
  apply floats_in_iff; [distinct|]. exists v. split; [exact G|reflexivity].
Qed.
Lemma from_vec2 o t a b : get_vec2 env o = (true, (a, b)) -> o = Some t -> floats_in p32 t ["X"; "Y"]%string [a; b].
Proof.
  unfold get_vec2. intros H ->. cbn [getFrom_opt] in H. opens H. injection H as <- <-.
  apply floats_in_iff; [distinct|]. exists v. split; [exact G|reflexivity].
Qed.
Lemma is_contents t : contents t (getContent t).
Proof. now apply contents_iff. Qed.
Lemma get_int_sound {A} (p : parsed A) conv zero v : get_int true p conv zero = Some v -> exists n, (p = PVal n \/ p = PRange n) /\ v = conv n.
Proof. destruct p as [n|n|]; cbn; intros H; try discriminate H; injection H as <-; eauto. Qed.
Lemma int_sound bits c n : (2 <= bits)%N -> ParseInt bits c = PVal n \/ ParseInt bits c = PRange n -> exists b, signed bits c b n.
Proof. intros Hb [H|H]; [exists true|exists false]; now apply ParseInt_iff. Qed.
Lemma nonempty_iff (c : bytes) : nonempty c = true <-> c <> [].
Proof. destruct c; split; easy. Qed.

Lemma read_sound t typ v w : getValue env true t typ = OK (Some v, w) -> means p32 (fl_parse64 fl) (xe_div255 env) typ t v.
Proof.
  intros H. unfold getValue in H. cbv zeta in H. pose proof (is_contents t) as HC.
  destruct (N.eqb_spec typ TypeAxes) as [->|_].
  { opens H. injection H as <- _. comps G C. apply (M_axes _ _ _ t _ (vz v0 "axes") _ _ _ C); [fval|now apply bits_iff]. }
  destruct (N.eqb_spec typ TypeBinaryString) as [->|_].
  { destruct (b64_decode _) eqn:E; [|discriminate H]. injection H as <- _. apply C98_decode in E. now apply (M_binary _ _ _ t _ _ HC). }
  destruct (N.eqb_spec typ TypeBool) as [->|_].
  { destruct (get_bool true t) eqn:E; [|discriminate H]. injection H as <- _. apply M_bool. now apply truth_read. }
  destruct (N.eqb_spec typ TypeBrickColor) as [->|_].
  { injection H as H _. destruct (get_int_sound _ _ _ _ H) as (n & P & ->). apply (M_brickcolor _ _ _ t _ _ HC). now apply ParseUint_iff. }
  destruct (N.eqb_spec typ TypeCFrame) as [->|_].
  { opens H. injection H as <- _. apply M_cframe; [reflexivity|]. apply floats_in_iff; [distinct|]. exists v0. split; [exact G|reflexivity]. }
  destruct (N.eqb_spec typ TypeColor3) as [->|_].
  { destruct (nonempty (getContent t)) eqn:Ne.
    - injection H as H _. destruct (get_int_sound _ _ _ _ H) as (n & P & ->). apply nonempty_iff in Ne. apply (M_color3_packed _ _ _ t (getContent t) n); [now split|now apply ParseUint_iff|now apply rgb_iff].
    - opens H. injection H as <- _. apply M_color3.
      + apply contents_iff. now destruct (getContent t).
      + apply floats_in_iff; [distinct|]. exists v0. split; [exact G|reflexivity]. }
  destruct (N.eqb_spec typ TypeContent) as [->|_].
  { destruct (get_content true t) as [[c|] w'] eqn:E; [|discriminate H]. injection H as <- _. apply M_content. eapply content_read; eauto. }
  destruct (N.eqb_spec typ TypeDouble) as [->|_].
  { destruct (fl_parse64 _ _) eqn:E; [|discriminate H]. injection H as <- _. now apply (M_double _ _ _ t _ _ HC). }
  destruct (N.eqb_spec typ TypeFaces) as [->|_].
  { opens H. injection H as <- _. comps G C. apply (M_faces _ _ _ t _ (vz v0 "faces") _ _ _ _ _ _ C); [fval|now apply bits_iff]. }
  destruct (N.eqb_spec typ TypeFloat) as [->|_].
  { destruct (fl_parse32 _ _) eqn:E; [|discriminate H]. injection H as <- _. now apply (M_float _ _ _ t _ _ HC). }
  destruct (N.eqb_spec typ TypeInt) as [->|_].
  { injection H as H _. destruct (get_int_sound _ _ _ _ H) as (n & P & ->). destruct (int_sound 32 _ _ ltac:(lia) P) as (b & S). exact (M_int _ _ _ t _ _ _ HC S). }
  destruct (N.eqb_spec typ TypeProtectedString) as [->|_].
  { injection H as <- _. now apply M_protected. }
  destruct (N.eqb_spec typ TypeRay) as [->|_].
  { opens H. 2:{ destruct (get_vec3 env _) as [? ?]. destruct (get_vec3 env _) as [? ?]. discriminate H. }
    destruct (get_vec3 env (vt v0 "origin")) as [ok1 o] eqn:E1. destruct (get_vec3 env (vt v0 "direction")) as [ok2 d] eqn:E2.
    destruct ok1, ok2; try discriminate H. injection H as <- _.
    destruct (tags_iff fl ["origin"; "direction"]%string t ltac:(distinct)) as [T _].
    destruct (T _ G "origin"%string ltac:(cbn; tauto)) as (u1 & V1 & F1). destruct (T _ G "direction"%string ltac:(cbn; tauto)) as (u2 & V2 & F2).
    destruct (from_vec3 _ _ _ E1 V1) as (a & b & c & -> & X1). destruct (from_vec3 _ _ _ E2 V2) as (a' & b' & c' & -> & X2).
    exact (M_ray _ _ _ _ _ _ _ _ _ _ _ _ F1 F2 X1 X2). }
  destruct (N.eqb_spec typ TypeReference) as [->|_].
  { injection H as <- _. apply M_reference. }
  destruct (N.eqb_spec typ TypeString) as [->|_].
  { injection H as <- _. now apply M_string. }
  destruct (N.eqb_spec typ TypeToken) as [->|_].
  { injection H as H _. destruct (get_int_sound _ _ _ _ H) as (n & P & ->). destruct (int_sound 32 _ _ ltac:(lia) P) as (b & S). exact (M_token _ _ _ t _ _ _ HC S). }
  destruct (N.eqb_spec typ TypeUDim) as [->|_].
  { opens H. injection H as <- _. comps G C. apply (M_udim _ _ _ t _ _ _ C); fval. }
  destruct (N.eqb_spec typ TypeUDim2) as [->|_].
  { opens H. injection H as <- _. comps G C. apply (M_udim2 _ _ _ t _ _ _ _ _ C); fval. }
  destruct (N.eqb_spec typ TypeVector2) as [->|_].
  { destruct (get_vec2 env (Some t)) as [ok [x y]] eqn:E. destruct ok; [|discriminate H]. injection H as <- _. apply M_vector2. eapply from_vec2; eauto. }
  destruct (N.eqb_spec typ TypeVector2int16) as [->|_].
  { opens H. injection H as <- _. comps G C. apply (M_vector2int16 _ _ _ t _ _ _ C); fval. }
  destruct (N.eqb_spec typ TypeVector3) as [->|_].
  { destruct (get_vec3 env (Some t)) as [ok x] eqn:E. destruct ok; [|discriminate H]. injection H as <- _. destruct (from_vec3 _ _ _ E eq_refl) as (a & b & c & -> & X). now apply M_vector3. }
  destruct (N.eqb_spec typ TypeVector3int16) as [->|_].
  { opens H. injection H as <- _. comps G C. apply (M_vector3int16 _ _ _ t _ _ _ _ C); fval. }
  destruct (N.eqb_spec typ TypeNumberSequence) as [->|_].
  { destruct (scanGroups _ _ 3 _) as [gs|] eqn:E; [|discriminate H]. injection H as <- _. apply scanGroups_iff in E; [|lia|lia]. destruct E as [F W].
    apply (M_numbersequence _ _ _ t _ _ HC). replace (flat_map _ (map group_nskey gs)) with (concat gs); [exact W|].
    clear - F. induction F as [|g gs Hg F IH]; [reflexivity|]. cbn [map flat_map concat]. rewrite IH. f_equal. destruct g as [|a [|b [|c [|]]]]; try discriminate Hg. reflexivity. }
  destruct (N.eqb_spec typ TypeColorSequence) as [->|_].
  { destruct (scanGroups _ _ 5 _) as [gs|] eqn:E; [|discriminate H]. injection H as <- _. apply scanGroups_iff in E; [|lia|lia]. destruct E as [F W].
    apply (M_colorsequence _ _ _ t _ _ HC). replace (flat_map _ (map group_cskey gs)) with (concat gs); [exact W|].
    clear - F. induction F as [|g gs Hg F IH]; [reflexivity|]. cbn [map flat_map concat]. rewrite IH. f_equal. destruct g as [|a [|b [|c [|d [|e [|]]]]]]; try discriminate Hg. reflexivity. }
  destruct (N.eqb_spec typ TypeNumberRange) as [->|_].
  { destruct (scanFloats _ 2 _) as [[fs r]|] eqn:E; [|discriminate H]. destruct fs as [|a [|b [|]]]; try discriminate H. injection H as <- _.
    apply (M_numberrange _ _ _ t _ _ _ r HC). apply scanFloats_iff. exact E. }
  destruct (N.eqb_spec typ TypeRect) as [->|_].
  { opens H. 2:{ destruct (get_vec2 env _) as [? [? ?]]. destruct (get_vec2 env _) as [? [? ?]]. discriminate H. }
    destruct (get_vec2 env (vt v0 "min")) as [ok1 [a b]] eqn:E1. destruct (get_vec2 env (vt v0 "max")) as [ok2 [x y]] eqn:E2.
    destruct ok1, ok2; try discriminate H. injection H as <- _.
    destruct (tags_iff fl ["min"; "max"]%string t ltac:(distinct)) as [T _].
    destruct (T _ G "min"%string ltac:(cbn; tauto)) as (u1 & V1 & F1). destruct (T _ G "max"%string ltac:(cbn; tauto)) as (u2 & V2 & F2).
    exact (M_rect _ _ _ _ _ _ _ _ _ _ F1 F2 (from_vec2 _ _ _ _ E1 V1) (from_vec2 _ _ _ _ E2 V2)). }
  destruct (N.eqb_spec typ TypePhysicalProperties) as [->|_].
  { opens H. destruct (vt v0 "CustomPhysics") as [cp|] eqn:V; [|discriminate H].
    destruct (tags_iff fl ["CustomPhysics"]%string t ltac:(distinct)) as [T _]. destruct (T _ G "CustomPhysics"%string ltac:(cbn; tauto)) as (u & V' & F).
    rewrite V in V'. injection V' as <-. destruct (get_bool true cp) as [[|]|] eqn:B; [| |discriminate H].
    - clear G. opens H. injection H as <- _. apply (M_physical _ _ _ _ cp); [exact F|now apply truth_read|]. apply floats_in_iff; [distinct|]. exists v1. split; [exact G|reflexivity].
    - injection H as <- _. apply (M_physical_default _ _ _ _ cp); [exact F|now apply truth_read]. }
  destruct (N.eqb_spec typ TypeColor3uint8) as [->|_].
  { destruct (nonempty (getContent t)) eqn:Ne.
    - injection H as H _. destruct (get_int_sound _ _ _ _ H) as (n & P & ->). apply nonempty_iff in Ne. apply (M_color3uint8_packed _ _ _ t (getContent t) n); [now split|now apply ParseUint_iff|now apply rgb_iff].
    - opens H. injection H as <- _. comps G C. apply (fun H => M_color3uint8 _ _ _ t _ _ _ _ H C); try fval.
      apply contents_iff. now destruct (getContent t). }
  destruct (N.eqb_spec typ TypeInt64) as [->|_].
  { injection H as H _. destruct (get_int_sound _ _ _ _ H) as (n & P & ->). destruct (int_sound 64 _ _ ltac:(lia) P) as (b & S). exact (M_int64 _ _ _ t _ _ _ HC S). }
  destruct (N.eqb_spec typ TypeSharedString) as [->|_].
  { destruct (b64_decode _) eqn:E; [|discriminate H]. injection H as <- _. apply C98_decode in E. now apply (M_shared _ _ _ t _ _ HC). }
  destruct (N.eqb_spec typ TypeUniqueId) as [->|_].
  { destruct (hex_decode _) as [b|] eqn:E; [|discriminate H]. destruct (Nat.ltb_spec (length b) 16) as [L|L]; [discriminate H|].
    match type of H with OK (Some ?x, _) = _ => assert (EV : x = v) by congruence; clear H; rewrite <- EV; clear EV v end.
    apply hex_iff in E. pose proof (hex_text_length _ _ E) as EL. pose proof (firstn_le_length 32 (t_text t)) as L32.
    assert (Lb : length b = 16) by lia.
    apply (M_uniqueid _ _ _ t (firstn 32 (t_text t)) (skipn 32 (t_text t))).
    - symmetry. apply firstn_skipn.
    - lia.
    - rewrite toN_ofN; [|lia|].
      + assert (L1 : length (firstn 8 b) = 8) by (rewrite firstn_length; lia).
        assert (L2 : length (firstn 4 (skipn 8 b)) = 4) by (rewrite firstn_length, skipn_length; lia).
        assert (L3 : length (firstn 4 (skipn 12 b)) = 4) by (rewrite firstn_length, skipn_length; lia).
        pose proof (be_bytes_be_N (firstn 8 b)) as B1. rewrite L1 in B1. pose proof (be_bytes_be_N (firstn 4 (skipn 8 b))) as B2. rewrite L2 in B2. pose proof (be_bytes_be_N (firstn 4 (skipn 12 b))) as B3. rewrite L3 in B3.
        rewrite B1, B2, B3. replace (firstn 8 b ++ _) with b; [exact E|].
        do 16 (destruct b as [|? b]; [discriminate Lb|]). destruct b; [reflexivity|discriminate Lb].
      + pose proof (be_N_lt (firstn 8 b)) as B. rewrite firstn_length, Lb in B. exact B.
    - pose proof (ofN_range 64 (be_N (firstn 8 b)) ltac:(lia)) as B. unfold in_i in B. change (64 - 1)%Z with 63%Z in B. lia.
    - pose proof (be_N_lt (firstn 4 (skipn 8 b))) as B. rewrite firstn_length, skipn_length, Lb in B. exact B.
    - pose proof (be_N_lt (firstn 4 (skipn 12 b))) as B. rewrite firstn_length, skipn_length, Lb in B. exact B. }
  destruct (N.eqb_spec typ TypeFont) as [->|_]; [|discriminate H].
  opens H. cbn [negb] in H. destruct (vt v0 "Family") as [fam|] eqn:V; [|discriminate H].
  comps G C.
  assert (TA : tag_at (mfind v0) "Family" fam). { unfold tag_at. unfold vt in V. destruct (mfind v0 (str "Family")) as [[| |]|]; try discriminate V. now injection V as ->. }
  assert (WA : int_at (mfind v0) "Weight" (vz v0 "Weight")) by fval. assert (SA : int_at (mfind v0) "Style" (vz v0 "Style")) by fval. 
  destruct (get_content true fam) as [[f|] w1] eqn:E1; [|discriminate H].
  destruct (tags_iff fl ["CachedFaceId"]%string t ltac:(distinct)) as [T1 T2].
  clear G. destruct (getFrom _ (wants CTag ["CachedFaceId"]%string) t) as [ok v2] eqn:G.
  apply content_read in E1.
  destruct ok.
  - destruct (T1 _ eq_refl "CachedFaceId"%string ltac:(cbn; tauto)) as (u & V' & F). rewrite V' in H. destruct (get_content true u) as [[cid|] w2] eqn:E2; [|discriminate H].
    injection H as <- _. apply (M_font _ _ _ t _ fam _ _ f cid C TA WA SA); [exact E1|]. right. exists u. split; [exact F|]. eapply content_read; eauto.
  - injection H as <- _. apply (M_font _ _ _ t _ fam _ _ f [] C TA WA SA); [exact E1|]. left. split; [|reflexivity].
    destruct (first_dec (str "CachedFaceId") (t_tags t)) as [A|(u & F)]; [exact A|]. destruct (T2 [u]) as (v3 & G' & _); [constructor; [exact F|constructor]|]. discriminate G'.
Qed.
End Sound.

Ltac pick_type := unfold getValue; cbv zeta;
  repeat match goal with |- context [(?a =? ?b)%N] => let r := eval vm_compute in (a =? b)%N in change (a =? b)%N with r end; cbv iota.
(** Components that are there are read. *)
Ltac gets C := let v := fresh "v" in let G := fresh "G" in let M := fresh "M" in
  match type of C with components _ ?w (t_tags ?t) ?val =>
    match goal with fl := xe_fl ?env |- _ =>
      assert (NDw : NoDup (map fst w)) by distinct;
      destruct (getFrom_complete (xe_fl env) w NDw t val C) as (v & G & M); clear NDw;
      match goal with |- context [getFrom (xe_fl env) ?w' t] => change (getFrom (xe_fl env) w' t) with (getFrom (xe_fl env) w t) end;
      rewrite G;
      repeat match goal with
        | H : float_at val ?n ?f |- _ => rewrite (at_vf w v val n f M ltac:(cbn; tauto) H); clear H
        | H : int_at val ?n ?f |- _ => rewrite (at_vz w v val n f M ltac:(cbn; tauto) H); clear H
        | H : tag_at val ?n ?f |- _ => rewrite (at_vt w v val n f M ltac:(cbn; tauto) H); clear H
      end end end.
Section Complete.
Variable (env : xenv) (d : bool).
Let fl := xe_fl env.
Let p32 := fl_parse32 fl.
Lemma to_vec3 t a b c : floats_in p32 t ["X"; "Y"; "Z"]%string [a; b; c] -> get_vec3 env (Some t) = (true, Vec3 a b c).
Proof.
  intros F. apply (floats_in_iff fl) in F as (v & G & E); [|distinct]. unfold get_vec3. cbn [getFrom_opt]. fold fl. rewrite G. cbn [map] in E. injection E as <- <- <-. reflexivity.
Qed.
Lemma to_vec2 t a b : floats_in p32 t ["X"; "Y"]%string [a; b] -> get_vec2 env (Some t) = (true, (a, b)).
Proof.
  intros F. apply (floats_in_iff fl) in F as (v & G & E); [|distinct]. unfold get_vec2. cbn [getFrom_opt]. fold fl. rewrite G. cbn [map] in E. injection E as <- <-. reflexivity.
Qed.
Lemma get_int_complete {A} (p : parsed A) conv zero n : p = PVal n \/ p = PRange n -> get_int d p conv zero = Some (conv n).
Proof. intros [->| ->]; reflexivity. Qed.
Lemma int_complete bits c b z : (2 <= bits)%N -> signed bits c b z -> ParseInt bits c = PVal z \/ ParseInt bits c = PRange z.
Proof. intros Hb H. apply ParseInt_iff in H; [|exact Hb]. destruct b; [now left|now right]. Qed.
Lemma bit_list z bs i : bits_at z bs -> i < length bs -> nth i bs false = bit z (Z.of_nat i).
Proof. intros B L. apply bits_iff in B. rewrite B. rewrite (nth_indep _ false (bit z (Z.of_nat 0))) by (rewrite map_length, seq_length; exact L).
  rewrite (map_nth (fun i => bit z (Z.of_nat i))). now rewrite seq_nth. Qed.

Lemma read_complete t typ v : means p32 (fl_parse64 fl) (xe_div255 env) typ t v -> exists w, getValue env d t typ = OK (Some v, w).
Proof.
  intros H. destruct H; repeat match goal with H : contents _ _ |- _ => apply contents_iff in H end; pick_type.
  - exists []. gets H. apply bits_iff in H1. cbn [length seq map] in H1. injection H1 as -> -> ->. reflexivity.
  - exists []. gets H. apply bits_iff in H1. cbn [length seq map] in H1. injection H1 as -> -> -> -> -> ->. reflexivity.
  - exists []. apply C98_decode in H0. rewrite H, H0. reflexivity.
  - exists []. apply C98_decode in H0. rewrite H, H0. reflexivity.
  - exists []. rewrite H. reflexivity.
  - exists []. rewrite H. reflexivity.
  - destruct (content_iff d t c H) as (w & E). exists w. rewrite E. reflexivity.
  - exists []. reflexivity.
  - exists []. rewrite (truth_iff d t b H). reflexivity.
  - exists []. rewrite H. apply ParseUint_iff in H0. now rewrite (get_int_complete _ _ _ _ H0).
  - exists []. rewrite H. now rewrite (get_int_complete _ _ _ _ (int_complete 32 _ _ _ ltac:(lia) H0)).
  - exists []. rewrite H. now rewrite (get_int_complete _ _ _ _ (int_complete 64 _ _ _ ltac:(lia) H0)).
  - exists []. rewrite H. now rewrite (get_int_complete _ _ _ _ (int_complete 32 _ _ _ ltac:(lia) H0)).
  - exists []. rewrite H. unfold p32, fl in H0. rewrite H0. reflexivity.
  - exists []. rewrite H. unfold fl in H0. rewrite H0. reflexivity.
  - exists []. gets H. reflexivity.
  - exists []. gets H. reflexivity.
  - exists []. rewrite (to_vec2 _ _ _ H). reflexivity.
  - exists []. rewrite (to_vec3 _ _ _ _ H). reflexivity.
  - exists []. gets H. reflexivity.
  - exists []. gets H. reflexivity.
  - exists []. apply (floats_in_iff fl) in H0 as (v & G & E); [|distinct]. unfold fl in G. change (["X"; "Y"; "Z"]%string ++ _) with ["X"; "Y"; "Z"; "R00"; "R01"; "R02"; "R10"; "R11"; "R12"; "R20"; "R21"; "R22"]%string. rewrite G.
    do 2 f_equal. f_equal. cbn [map] in E |- *. injection E as <- <- <- <-. reflexivity.
  - exists []. destruct H as [H Hne]. apply contents_iff in H. rewrite H. rewrite (proj2 (nonempty_iff c) Hne). apply ParseUint_iff in H0. rewrite (get_int_complete _ _ _ _ H0).
    apply rgb_iff in H1 as (<- & <- & <-). reflexivity.
  - exists []. apply contents_iff in H. rewrite H. cbn [nonempty]. apply (floats_in_iff fl) in H0 as (v & G & E); [|distinct]. unfold fl in G. rewrite G. cbn [map] in E. injection E as <- <- <-. reflexivity.
  - exists []. destruct H as [H Hne]. apply contents_iff in H. rewrite H. rewrite (proj2 (nonempty_iff c) Hne). apply ParseUint_iff in H0. rewrite (get_int_complete _ _ _ _ H0).
    apply rgb_iff in H1 as (<- & <- & <-). reflexivity.
  - exists []. apply contents_iff in H. rewrite H. cbn [nonempty]. gets H0. reflexivity.
  - exists []. destruct (tags_iff fl ["origin"; "direction"]%string t ltac:(distinct)) as [_ T]. destruct (T [o; d0]) as (v & G & E); [repeat constructor; assumption|].
    unfold fl in G. rewrite G. cbn [map] in E. injection E as -> ->. rewrite (to_vec3 _ _ _ _ H1), (to_vec3 _ _ _ _ H2). reflexivity.
  - exists []. destruct (tags_iff fl ["min"; "max"]%string t ltac:(distinct)) as [_ T]. destruct (T [a; b]) as (v & G & E); [repeat constructor; assumption|].
    unfold fl in G. rewrite G. cbn [map] in E. injection E as -> ->. rewrite (to_vec2 _ _ _ H1), (to_vec2 _ _ _ H2). reflexivity.
  - exists []. rewrite H. apply (scanFloats_iff fl) in H0. cbn [length] in H0. unfold fl in H0. rewrite H0. reflexivity.
  - exists []. rewrite H. rewrite (proj1 (scanGroups_iff (xe_fl env) 3 (map (fun k => [ns_time k; ns_value k; ns_env k]) ks) ltac:(lia) (length c) c (le_n _))).
    + do 4 f_equal. rewrite map_map. rewrite <- (map_id ks) at 2. apply map_ext. now intros [].
    + split; [apply Forall_forall; intros g Hg; apply in_map_iff in Hg as (k & <- & _); reflexivity|]. now rewrite <- flat_map_concat_map.
  - exists []. rewrite H. rewrite (proj1 (scanGroups_iff (xe_fl env) 5 (map (fun k => [cs_time k; cs_r k; cs_g k; cs_b k; cs_env k]) ks) ltac:(lia) (length c) c (le_n _))).
    + do 4 f_equal. rewrite map_map. rewrite <- (map_id ks) at 2. apply map_ext. now intros [].
    + split; [apply Forall_forall; intros g Hg; apply in_map_iff in Hg as (k & <- & _); reflexivity|]. now rewrite <- flat_map_concat_map.
  - exists []. destruct (tags_iff fl ["CustomPhysics"]%string t ltac:(distinct)) as [_ T]. destruct (T [u]) as (v & G & E); [repeat constructor; assumption|].
    unfold fl in G. rewrite G. cbn [map] in E. injection E as ->. rewrite (truth_iff d _ _ H0). reflexivity.
  - exists []. destruct (tags_iff fl ["CustomPhysics"]%string t ltac:(distinct)) as [_ T]. destruct (T [u]) as (v & G & E); [repeat constructor; assumption|].
    unfold fl in G. rewrite G. cbn [map] in E. injection E as ->. rewrite (truth_iff d _ _ H0).
    apply (floats_in_iff fl) in H1 as (v1 & G1 & E); [|distinct]. unfold fl in G1. rewrite G1. cbn [map] in E. injection E as <- <- <- <- <-. reflexivity.
  - exists []. rewrite H. rewrite <- H0, firstn_app, Nat.sub_diag, firstn_O, app_nil_r, firstn_all. apply hex_iff in H1. rewrite H1.
    match goal with |- context [length ?l <? 16] => change (length l <? 16) with (length (be_bytes 8 (toN 64 r) ++ be_bytes 4 tm ++ be_bytes 4 i) <? 16); replace (length (be_bytes 8 (toN 64 r) ++ be_bytes 4 tm ++ be_bytes 4 i)) with 16 by (rewrite !app_length, !be_bytes_length; reflexivity) end.
    change (16 <? 16) with false. cbv iota.
    assert (L1 : length (be_bytes 8 (toN 64 r)) = 8) by apply be_bytes_length. assert (L2 : length (be_bytes 4 tm) = 4) by apply be_bytes_length. assert (L3 : length (be_bytes 4 i) = 4) by apply be_bytes_length.
    assert (S1 : be_N (be_bytes 8 (toN 64 r)) = toN 64 r) by (apply be_N_be_bytes_small; apply (toN_lt 64); lia).
    assert (S2 : be_N (be_bytes 4 tm) = tm) by (apply be_N_be_bytes_small; exact H3). assert (S3 : be_N (be_bytes 4 i) = i) by (apply be_N_be_bytes_small; exact H4).
    revert L1 L2 L3 S1 S2 S3. generalize (be_bytes 8 (toN 64 r)) as l1. generalize (be_bytes 4 tm) as l2. generalize (be_bytes 4 i) as l3. intros l3 l2 l1 L1 L2 L3 S1 S2 S3.
    replace (firstn 8 (l1 ++ l2 ++ l3)) with l1; [|rewrite firstn_app, L1, Nat.sub_diag, firstn_O, app_nil_r, <- L1, firstn_all; reflexivity].
    replace (skipn 12 (l1 ++ l2 ++ l3)) with l3; [|rewrite app_assoc, skipn_app, app_length, L1, L2, Nat.sub_diag, skipn_all2 by (rewrite app_length; lia); reflexivity].
    replace (skipn 8 (l1 ++ l2 ++ l3)) with (l2 ++ l3); [|rewrite skipn_app, L1, Nat.sub_diag, skipn_all2 by lia; reflexivity].
    rewrite firstn_app, L2, Nat.sub_diag, firstn_O, app_nil_r. rewrite (firstn_all2 l2), (firstn_all2 l3) by lia. rewrite S1, S2, S3.
    rewrite ofN_toN; [reflexivity|lia|]. unfold in_i. change (64 - 1)%Z with 63%Z. lia.
  - gets H. cbn [negb]. destruct (content_iff d fam f H3) as (w1 & E1). rewrite E1.
    destruct (tags_iff fl ["CachedFaceId"]%string t ltac:(distinct)) as [T1 T2]. unfold fl in T1, T2.
    destruct H4 as [[A ->]|(u & F & Hc)].
    + destruct (getFrom (xe_fl env) (wants CTag ["CachedFaceId"]%string) t) as [ok v2] eqn:G2. destruct ok.
      * exfalso. destruct (T1 _ eq_refl "CachedFaceId"%string ltac:(cbn; tauto)) as (u & _ & F). eapply first_absent; eauto.
      * eexists. reflexivity.
    + destruct (T2 [u]) as (v2 & G2 & E2); [repeat constructor; assumption|]. rewrite G2. cbn [map] in E2. injection E2 as ->.
      destruct (content_iff d u id Hc) as (w2 & E2). rewrite E2. eexists. reflexivity.
Qed.
End Complete.

(** With DiscardInvalidProperties, the value of a property is what its tag
    means, and there is none if it means nothing. *)
Theorem C75_value env t typ v :
  (exists w, getValue env true t typ = OK (Some v, w)) <-> means (fl_parse32 (xe_fl env)) (fl_parse64 (xe_fl env)) (xe_div255 env) typ t v.
Proof. split; [intros (w & H); eapply read_sound; eauto|apply read_complete]. Qed.
(** Without it, the value is the same, *)
Theorem C75_keep env t typ v : means (fl_parse32 (xe_fl env)) (fl_parse64 (xe_fl env)) (xe_div255 env) typ t v ->
  exists w, getValue env false t typ = OK (Some v, w).
Proof. apply read_complete. Qed.
(** and a tag that means nothing is the zero value of the type (of a CFrame,
    zeros).  Not so for Content with text, which has no value at all, and the
    parts of PhysicalProperties and Font, which become zero one by one. *)
Definition zero (typ : Type_) (z : rvalue) : Prop :=
  if (typ =? TypeCFrame)%N then z = RCFrame (Vec3 0 0 0) (repeat 0%N 9) else NewValue typ = Some z.
Ltac here HZ H HN' := vm_compute in HZ; first [injection HZ as <-|subst];
  repeat match type of H with
  | context [getFrom ?a ?b ?c] => destruct (getFrom a b c) as [[|] ?]
  | context [match ?x with PVal _ => _ | PRange _ => _ | PSyntax => _ end] => destruct x
  end; first [injection H as <-; reflexivity | exfalso; eapply HN'; reflexivity].
Theorem C75_zero env t typ z w : zero typ z -> ~ In typ [TypePhysicalProperties; TypeFont; TypeOptional] -> (typ = TypeContent -> contents t []) ->
  (forall v, ~ means (fl_parse32 (xe_fl env)) (fl_parse64 (xe_fl env)) (xe_div255 env) typ t v) ->
  getValue env false t typ = OK w -> fst w = Some z.
Proof.
  intros HZ HP HT HN H.
  assert (HN' : forall v w, getValue env true t typ <> OK (Some v, w)). { intros v w' E. apply (HN v). apply C75_value. now exists w'. }
  clear HN. unfold getValue in *. cbv zeta in *.
  destruct (N.eqb_spec typ TypeAxes) as [->|?]; [here HZ H HN'|].
  destruct (N.eqb_spec typ TypeBinaryString) as [->|?]; [destruct (b64_decode _); here HZ H HN'|].
  destruct (N.eqb_spec typ TypeBool) as [->|?].
  { unfold get_bool in *. destruct (existsb _ _); [here HZ H HN'|]. destruct (existsb _ _); here HZ H HN'. }
  destruct (N.eqb_spec typ TypeBrickColor) as [->|?]; [unfold get_int in *; here HZ H HN'|].
  destruct (N.eqb_spec typ TypeCFrame) as [->|NC]; [here HZ H HN'|]. unfold zero in HZ. rewrite (proj2 (N.eqb_neq _ _) NC) in HZ.
  destruct (N.eqb_spec typ TypeColor3) as [->|?]; [destruct (nonempty _); unfold get_int in *; here HZ H HN'|].
  destruct (N.eqb_spec typ TypeContent) as [->|?].
  { specialize (HT eq_refl). apply contents_iff in HT. unfold get_content in *. rewrite HT in *. cbn [nonempty] in *. destruct (t_tags t); [|repeat destruct (bytes_eqb _ _)]; here HZ H HN'. }
  destruct (N.eqb_spec typ TypeDouble) as [->|?]; [destruct (fl_parse64 _ _); here HZ H HN'|].
  destruct (N.eqb_spec typ TypeFaces) as [->|?]; [here HZ H HN'|].
  destruct (N.eqb_spec typ TypeFloat) as [->|?]; [destruct (fl_parse32 _ _); here HZ H HN'|].
  destruct (N.eqb_spec typ TypeInt) as [->|?]; [unfold get_int in *; here HZ H HN'|].
  destruct (N.eqb_spec typ TypeProtectedString) as [->|?]; [here HZ H HN'|].
  destruct (N.eqb_spec typ TypeRay) as [->|?].
  { destruct (getFrom _ _ t) as [ok v]. destruct (get_vec3 env (vt v "origin")) as [ok1 o]. destruct (get_vec3 env (vt v "direction")) as [ok2 d]. destruct ok, ok1, ok2; here HZ H HN'. }
  destruct (N.eqb_spec typ TypeReference) as [->|?]; [here HZ H HN'|].
  destruct (N.eqb_spec typ TypeString) as [->|?]; [here HZ H HN'|].
  destruct (N.eqb_spec typ TypeToken) as [->|?]; [unfold get_int in *; here HZ H HN'|].
  destruct (N.eqb_spec typ TypeUDim) as [->|?]; [here HZ H HN'|].
  destruct (N.eqb_spec typ TypeUDim2) as [->|?]; [here HZ H HN'|].
  destruct (N.eqb_spec typ TypeVector2) as [->|?]; [destruct (get_vec2 env (Some t)) as [[|] [x y]]; here HZ H HN'|].
  destruct (N.eqb_spec typ TypeVector2int16) as [->|?]; [here HZ H HN'|].
  destruct (N.eqb_spec typ TypeVector3) as [->|?]; [destruct (get_vec3 env (Some t)) as [[|] x]; here HZ H HN'|].
  destruct (N.eqb_spec typ TypeVector3int16) as [->|?]; [here HZ H HN'|].
  destruct (N.eqb_spec typ TypeNumberSequence) as [->|?]; [destruct (scanGroups _ _ _ _); here HZ H HN'|].
  destruct (N.eqb_spec typ TypeColorSequence) as [->|?]; [destruct (scanGroups _ _ _ _); here HZ H HN'|].
  destruct (N.eqb_spec typ TypeNumberRange) as [->|?]; [destruct (scanFloats _ _ _) as [[[|a [|b [|]]] ?]|]; here HZ H HN'|].
  destruct (N.eqb_spec typ TypeRect) as [->|?].
  { destruct (getFrom _ _ t) as [ok v]. destruct (get_vec2 env (vt v "min")) as [ok1 [? ?]]. destruct (get_vec2 env (vt v "max")) as [ok2 [? ?]]. destruct ok, ok1, ok2; here HZ H HN'. }
  destruct (N.eqb_spec typ TypePhysicalProperties) as [->|?]; [destruct HP; now left|].
  destruct (N.eqb_spec typ TypeColor3uint8) as [->|?]; [destruct (nonempty _); unfold get_int in *; here HZ H HN'|].
  destruct (N.eqb_spec typ TypeInt64) as [->|?]; [unfold get_int in *; here HZ H HN'|].
  destruct (N.eqb_spec typ TypeSharedString) as [->|?]; [destruct (b64_decode _); here HZ H HN'|].
  destruct (N.eqb_spec typ TypeUniqueId) as [->|?]; [destruct (hex_decode _) as [b|]; [destruct (length b <? 16)%nat|]; here HZ H HN'|].
  destruct (N.eqb_spec typ TypeFont) as [->|NF]; [destruct HP; right; now left|].
  exfalso. clear H HN' HT. unfold NewValue, valueGenerators in HZ. cbn [assocN] in HZ.
  repeat match type of HZ with (if (?a =? ?b)%N then _ else _) = _ => destruct (N.eqb_spec a b); [first [congruence|destruct HP; cbn; tauto]|] end. discriminate HZ.
Qed.

(** ** Examples *)
Definition ex_fl : floats := Floats (fun _ _ => []) (fun _ _ => []) (fun s => match ParseUint 10 32 s with PVal n => Some n | _ => None end) (fun _ => None).
Definition ex_env : xenv := XEnv ex_fl (fun b => b) (fun n => n).
Definition leaf (n c : string) : tag := Tag (str n) [] [] false false None (str c) false [].
Definition node (l : list tag) : tag := Tag (str "P") [] [] false false None [] false l.
Definition ex_means := means (fl_parse32 ex_fl) (fl_parse64 ex_fl) (fun n => n).
Ltac by_reading := apply (C75_value ex_env); exists []; vm_compute; reflexivity.
Example C75_witness :
  (* order does not matter, nor do unknown and repeated tags *)
  ex_means TypeVector3 (node [leaf "Z" "3"; leaf "Q" "x"; leaf "X" "1"; leaf "Y" "2"; leaf "X" "9"]) (RVector3 (Vec3 1 2 3)) /\
  (* CDATA before text *)
  ex_means TypeString (Tag (str "P") [] [] false false (Some (str "data")) (str "text") false []) (RString (str "data")) /\
  ex_means TypeColor3 (leaf "P" "4278255361") (RColor3 0 255 1) /\
  ex_means TypeInt (leaf "P" "99999999999 and more") (RInt 2147483647) /\
  ex_means TypeInt (leaf "P" "-12") (RInt (-12)) /\
  ex_means TypeUDim (node [leaf "O" "7"; leaf "S" "5"]) (RUDim 5 7) /\
  (* a missing tag *)
  (forall v, ~ ex_means TypeUDim (node [leaf "O" "7"]) v) /\
  getValue ex_env false (node [leaf "O" "7"]) TypeUDim = OK (Some (RUDim 0 0), []).
Proof.
  split; [by_reading|]. split; [by_reading|]. split; [by_reading|]. split; [by_reading|]. split; [by_reading|]. split; [by_reading|].
  split; [|vm_compute; reflexivity]. intros v H. apply (C75_value ex_env) in H as (w & H). vm_compute in H. discriminate H.
Qed.
(** A number out of range hides the components after it: they are zero, and
    need not be there. *)
Theorem C75_cut_refuted :
  ex_means TypeVector3int16 (node [leaf "X" "1"; leaf "Y" "99999"; leaf "Z" "3"]) (RVector3int16 1 32767 0) /\
  ex_means TypeVector3int16 (node [leaf "Y" "99999"]) (RVector3int16 0 32767 0).
Proof. split; by_reading. Qed.
(** The text of a UniqueId counts, even beside a CDATA section. *)
Theorem C75_uniqueid_refuted :
  let t := Tag (str "P") [] [] false false (Some (str "00000000000000000000000000000001")) (str "00000000000000000000000000000002") false [] in
  contents t (str "00000000000000000000000000000001") /\ ex_means TypeUniqueId t (RUniqueId 0 0 2) /\ ~ ex_means TypeUniqueId t (RUniqueId 0 0 1).
Proof.
  cbv zeta. split; [now constructor|]. split; [by_reading|].
  intros H. apply (C75_value ex_env) in H as (w & H). vm_compute in H. discriminate H.
Qed.
Print Assumptions C75_value. Print Assumptions C75_keep. Print Assumptions C75_zero.
