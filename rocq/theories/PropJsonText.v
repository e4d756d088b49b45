(** PropJsonText.v - C62, about text: what json.Marshal writes for a string is
    always UTF-8, and it is the string itself exactly when the string is. *)
From Coq Require Import ZArith Lia Zify.
From Verif Require Import Base RbxlValues RbxValues Tree Json SpecJson JsonProofs.
Ltac Zify.zify_post_hook ::= Z.div_mod_to_equations.

Lemma rune_len_scalar s : rune_len s <> 0 -> exists c, scalar c /\ firstn (rune_len s) s = rune_bytes c.
Proof.
  destruct s as [|a s]; [intros H; now destruct H|]. cbn [rune_len].
  pose proof (b2N_lt a) as La. assert (Na := N2b_b2N a).
  destruct (N.ltb_spec (b2N a) 0x80) as [E1|E1].
  { intros _. exists (b2N a). unfold scalar, rune_bytes. split; [lia|].
    destruct (N.ltb_spec (b2N a) 0x80); [|lia]. cbn [firstn]. now rewrite Na. }
  destruct s as [|b s]; [intros H; now destruct H|].
  pose proof (b2N_lt b) as Lb. assert (Nb := N2b_b2N b). unfold between, cont.
  destruct ((0xc2 <=? b2N a) && (b2N a <=? 0xdf) && ((0x80 <=? b2N b) && (b2N b <=? 0xbf)))%N eqn:E2.
  { intros _. exists ((b2N a - 0xc0) * 64 + (b2N b - 0x80))%N. unfold scalar, rune_bytes.
    assert (0xc2 <= b2N a <= 0xdf /\ 0x80 <= b2N b <= 0xbf)%N as [? ?] by lia. split; [lia|].
    set (c := ((b2N a - 0xc0) * 64 + (b2N b - 0x80))%N).
    assert (c / 64 = b2N a - 0xc0)%N by (subst c; lia). assert (c mod 64 = b2N b - 0x80)%N by (subst c; lia).
    destruct (N.ltb_spec c 0x80); [subst c; lia|]. destruct (N.ltb_spec c 0x800); [|subst c; lia].
    cbn [firstn]. rewrite <- Na, <- Nb at 1. f_equal; [f_equal; lia|]. f_equal. f_equal. lia. }
  destruct s as [|d s]; [intros H; now destruct H|].
  pose proof (b2N_lt d) as Ld. assert (Nd := N2b_b2N d).
  assert (Xe : Byte.eqb a xe0 = (b2N a =? 0xe0)%N) by (rewrite <- Na at 1; now rewrite byte_is).
  assert (Xd : Byte.eqb a xed = (b2N a =? 0xed)%N) by (rewrite <- Na at 1; now rewrite byte_is).
  assert (Xf : Byte.eqb a xf0 = (b2N a =? 0xf0)%N) by (rewrite <- Na at 1; now rewrite byte_is).
  assert (X4 : Byte.eqb a xf4 = (b2N a =? 0xf4)%N) by (rewrite <- Na at 1; now rewrite byte_is).
  cbv zeta. rewrite Xe, Xd, Xf, X4.
  match goal with |- context[if ?t then 3 else _] => destruct t eqn:E3 end.
  { intros _. exists ((b2N a - 0xe0) * 4096 + (b2N b - 0x80) * 64 + (b2N d - 0x80))%N. unfold scalar, rune_bytes.
    assert (0xe0 <= b2N a <= 0xef /\ 0x80 <= b2N b <= 0xbf /\ 0x80 <= b2N d <= 0xbf /\
            (b2N a = 0xe0 -> 0xa0 <= b2N b) /\ (b2N a = 0xed -> b2N b <= 0x9f))%N as (? & ? & ? & ? & ?).
    { destruct (N.eqb_spec (b2N a) 0xe0); [lia|]. destruct (N.eqb_spec (b2N a) 0xed); lia. }
    split; [lia|].
    set (c := ((b2N a - 0xe0) * 4096 + (b2N b - 0x80) * 64 + (b2N d - 0x80))%N).
    assert (c / 4096 = b2N a - 0xe0)%N by (subst c; lia).
    assert (c / 64 = (b2N a - 0xe0) * 64 + (b2N b - 0x80))%N as C1 by (subst c; lia).
    assert (c / 64 mod 64 = b2N b - 0x80)%N by (rewrite C1; clear C1; lia).
    assert (c mod 64 = b2N d - 0x80)%N by (subst c; clear C1; lia). clear C1.
    destruct (N.ltb_spec c 0x80); [subst c; lia|]. destruct (N.ltb_spec c 0x800); [subst c; lia|].
    destruct (N.ltb_spec c 0x10000); [|subst c; lia].
    cbn [firstn]. rewrite <- Na, <- Nb, <- Nd at 1. repeat f_equal; lia. }
  destruct s as [|e s]; [intros H; now destruct H|].
  pose proof (b2N_lt e) as Le. assert (Ne := N2b_b2N e).
  match goal with |- context[if ?t then 4 else _] => destruct t eqn:E4 end; [|intros H; now destruct H].
  intros _. exists ((b2N a - 0xf0) * 262144 + (b2N b - 0x80) * 4096 + (b2N d - 0x80) * 64 + (b2N e - 0x80))%N.
  unfold scalar, rune_bytes.
  assert (0xf0 <= b2N a <= 0xf4 /\ 0x80 <= b2N b <= 0xbf /\ 0x80 <= b2N d <= 0xbf /\ 0x80 <= b2N e <= 0xbf /\
          (b2N a = 0xf0 -> 0x90 <= b2N b) /\ (b2N a = 0xf4 -> b2N b <= 0x8f))%N as (? & ? & ? & ? & ? & ?).
  { clear E2 E3. destruct (N.eqb_spec (b2N a) 0xf0); [lia|]. destruct (N.eqb_spec (b2N a) 0xf4); lia. }
  clear E2 E3 E4. split; [lia|].
  set (c := ((b2N a - 0xf0) * 262144 + (b2N b - 0x80) * 4096 + (b2N d - 0x80) * 64 + (b2N e - 0x80))%N).
  assert (c / 262144 = b2N a - 0xf0)%N by (subst c; lia).
  assert (c / 4096 = (b2N a - 0xf0) * 64 + (b2N b - 0x80))%N as C0 by (subst c; lia).
  assert (c / 4096 mod 64 = b2N b - 0x80)%N by (rewrite C0; clear C0; lia). clear C0.
  assert (c / 64 = (b2N a - 0xf0) * 4096 + (b2N b - 0x80) * 64 + (b2N d - 0x80))%N as C1 by (subst c; lia).
  assert (c / 64 mod 64 = b2N d - 0x80)%N by (rewrite C1; clear C1; lia). clear C1.
  assert (c mod 64 = b2N e - 0x80)%N by (subst c; lia).
  destruct (N.ltb_spec c 0x80); [subst c; lia|]. destruct (N.ltb_spec c 0x800); [subst c; lia|].
  destruct (N.ltb_spec c 0x10000); [subst c; lia|].
  cbn [firstn]. rewrite <- Na, <- Nb, <- Nd, <- Ne at 1. repeat f_equal; lia.
Qed.

Lemma utf8_fix_utf8 fuel s : utf8 (utf8_loop fuel s).
Proof.
  revert s. induction fuel as [|fuel IH]; intros s.
  - exists []. split; [constructor|]. now destruct s.
  - destruct s as [|a r]; [exists []; split; [constructor|reflexivity]|].
    cbn [utf8_loop]. destruct (rune_len (a :: r)) as [|n] eqn:E.
    + destruct (IH r) as (cs & H1 & ->). exists (0xfffd%N :: cs). split; [constructor; [unfold scalar; lia|exact H1]|reflexivity].
    + destruct (rune_len_scalar (a :: r)) as (c & Hc & Ec); [rewrite E; discriminate|].
      destruct (IH (skipn (S n) (a :: r))) as (cs & H1 & H2). exists (c :: cs). split; [now constructor|].
      cbn [flat_map]. rewrite H2, <- Ec, E. reflexivity.
Qed.

(** Marshal then Unmarshal of a string always works, gives UTF-8, and gives
    the same string exactly when it is UTF-8. *)
Theorem C62_text : forall s, exists t,
  marshal (JStr s) = Some (JStr t) /\ utf8 t /\ (t = s <-> utf8 s).
Proof.
  intros s. exists (utf8_fix s). split; [reflexivity|]. split; [apply utf8_fix_utf8|]. split.
  - intros H. rewrite <- H. apply utf8_fix_utf8.
  - intros (cs & H & ->). apply utf8_loop_id; [exact H|lia].
Qed.
Print Assumptions C62_text.
(** A surrogate half, an overlong form and a number past U+10FFFF are not text. *)
Example C62_text_witness :
  marshal (JStr [xed; xa0; x80; x41]) = Some (JStr (concat [[xef; xbf; xbd]; [xef; xbf; xbd]; [xef; xbf; xbd]; [x41]])) /\
  marshal (JStr [xc3; xa9; xf0; x9f; x98; x80]) = Some (JStr [xc3; xa9; xf0; x9f; x98; x80]).
Proof. vm_compute. repeat split. Qed.
