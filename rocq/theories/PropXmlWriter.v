(** PropXmlWriter.v - C78: the XML encoder with writers that fail. *)
From Verif Require Import Base RbxValues Tree RbxlWriter SpecWriter XmlText XmlDoc XmlCodec XmlWriter XmlWriterProofs.
From Verif Require PropWriter PropTree PropXmlDecode PropXmlWrite.

(** What an encoder has done, [calls] and [e], compared with the text [out] and
    the warnings [all] for a writer that takes everything: no error, and all of
    it is there; or the error is that of the last call, what was delivered is a
    beginning, and the warnings are the first of them. *)
Definition written {E} (w : writer E) (out : bytes) (all : list xerr) (calls : list (call E)) (ws : list xerr) (e : option E) : Prop :=
  (e = None /\ Forall whole calls /\ delivered calls = out /\ ws = all) \/
  (exists before last more, e <> None /\ calls = before ++ [last] /\ Forall whole before /\ c_err last = e /\
     w before (c_arg last) = (c_n last, e) /\
     out = delivered calls ++ more /\ exists more_ws, all = ws ++ more_ws).

(** Every document. *)
Theorem C78_document : forall E (short : E) w d calls ws e, contract w ->
  WriteTo_w short w d = (calls, ws, e) -> written w (snd (WriteTo d)) (fst (WriteTo d)) calls ws e.
Proof. intros E short w d calls ws e Hw H. apply (writeto_sync short w Hw d calls ws e H). Qed.

(** Every tree: Encode. *)
Theorem C78_encode : forall E (short : E) w fuel env rnd enc h r calls ws e h1, contract w ->
  xml_encode_w short w fuel env rnd enc h r = OK (calls, ws, e, h1) ->
  exists all out, xml_encode fuel env rnd enc h r = OK (all, out, h1) /\ written w out all calls ws e.
Proof.
  intros E short w fuel env rnd enc h r calls ws e h1 Hw. unfold xml_encode_w, xml_encode.
  destruct (codec_write env rnd fuel (x_opts enc) h r) as [[t h2]|[]| |]; try discriminate. cbn [obind]. intros H.
  match type of H with OK (WriteTo_w short w ?d, _) = _ => set (doc := d) in * end.
  destruct (WriteTo_w short w doc) as [[cs w1] e1] eqn:Ew. inversion H; subst.
  pose proof (C78_document E short w doc calls ws e Hw Ew) as K. destruct (WriteTo doc) as [all out]. exists all, out. split; [reflexivity|exact K].
Qed.
(** A nil error: the whole text has been delivered. *)
Theorem C78_no_error : forall E (short : E) w fuel env rnd enc h r calls ws h1, contract w ->
  xml_encode_w short w fuel env rnd enc h r = OK (calls, ws, None, h1) ->
  xml_encode fuel env rnd enc h r = OK (ws, delivered calls, h1).
Proof.
  intros E short w fuel env rnd enc h r calls ws h1 Hw H. destruct (C78_encode E short w _ _ _ _ _ _ _ _ _ _ Hw H) as (all & out & Ho & [(_ & _ & <- & ->)|(b & l & m & K & _)]).
  - exact Ho.
  - congruence.
Qed.
(** A writer that takes everything gets all of it, whatever the buffering. *)
Theorem C78_complete : forall E (short : E) fuel env rnd enc h r ws out h1,
  xml_encode fuel env rnd enc h r = OK (ws, out, h1) ->
  exists calls, xml_encode_w short accept_all fuel env rnd enc h r = OK (calls, ws, None, h1) /\ delivered calls = out.
Proof.
  intros E short fuel env rnd enc h r ws out h1. unfold xml_encode_w, xml_encode.
  destruct (codec_write env rnd fuel (x_opts enc) h r) as [[t h2]|[]| |]; try discriminate. cbn [obind]. intros H.
  match goal with |- context [WriteTo_w short accept_all ?d] => set (doc := d) in * end.
  assert (A : contract (@accept_all E)) by (intros past p; split; [apply le_n|reflexivity]).
  destruct (WriteTo_w short accept_all doc) as [[cs w1] e1] eqn:Ew.
  pose proof (C78_document E short accept_all doc cs w1 e1 A Ew) as K. destruct (WriteTo doc) as [all out']. inversion H; subst. cbn [fst snd] in K.
  destruct K as [(-> & _ & <- & ->)|(b & l & m & K1 & K2 & _ & K3 & K4 & _)]; [eauto|]. exfalso. unfold accept_all in K4. congruence.
Qed.
(** The rest of what Encode does does not depend on the writer. *)
Theorem C78_same : forall E (short : E) w fuel env rnd enc h r,
  (xml_encode_w short w fuel env rnd enc h r = Panic <-> xml_encode fuel env rnd enc h r = Panic) /\
  (xml_encode_w short w fuel env rnd enc h r = Hang <-> xml_encode fuel env rnd enc h r = Hang).
Proof.
  intros E short w fuel env rnd enc h r. unfold xml_encode_w, xml_encode.
  destruct (codec_write env rnd fuel (x_opts enc) h r) as [[t h2]|[]| |]; cbn [obind]; [|split; split; auto; discriminate ..].
  match goal with |- context [WriteTo ?d] => destruct (WriteTo d) end. split; split; discriminate.
Qed.

(** ** Witnesses *)
Definition small_w (n : nat) :=
  match xml_encode_w tt (PropWriter.full_disk n) 9 PropXmlDecode.plain_env PropTree.counter
    (XEncoder (XOpts false true true false) [] [] true (str "end") true) PropXmlWrite.small (Some (Root [1] [])) with
  | OK (calls, _, e, _) => Some (delivered calls, length calls, e)
  | _ => None
  end.
(** A disk with room for everything, and one that is full after 100 bytes: one
    Write per tag or text, the sixth fails. *)
Example C78_full_disk :
  small_w 1000 = Some (PropXmlWrite.ex_out [] [] (str "end") true true PropXmlWrite.small, 15, None) /\
  small_w 100 = Some (firstn 100 (PropXmlWrite.ex_out [] [] (str "end") true true PropXmlWrite.small), 6, Some tt).
Proof. vm_compute. split; reflexivity. Qed.
(** A text longer than the buffer: 5000 bytes in a CDATA section *)
Example C78_long : let h := [Inst (str "P") (str "R") false [(str "s", RProtectedString (repeat x41 5000))] []] in
  exists calls ws h1, xml_encode_w tt (PropWriter.full_disk 4999) 9 PropXmlDecode.plain_env PropTree.counter
    (XEncoder (XOpts false true true false) [] [] true [] true) h (Some (Root [1] [])) = OK (calls, ws, Some tt, h1) /\
  length (delivered calls) = 4999.
Proof. do 3 eexists. split; vm_compute; reflexivity. Qed.
