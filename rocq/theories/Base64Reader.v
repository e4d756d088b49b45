(** Base64Reader.v - io.ReadAll(base64.NewDecoder(base64.StdEncoding, r)) with
    r a strings.Reader or bytes.Reader, as rbxlx/codec.go:99,103,426-427,917
    and json/json.go:437-438,708-709 use it: the decoder's buffer of 1024
    characters, the reader that drops line ends, and the buffer that ReadAll
    offers to each Read.  From the source of Go's encoding/base64 (decoder.Read,
    newlineFilteringReader.Read). *)
From Verif Require Import Base XmlText.

Definition is_char (b : byte) : bool := negb (is_eol b).
(** newlineFilteringReader.Read with room for k characters: Read until a piece
    has a character.  Nothing got is io.EOF.  Result: what was got, what is
    left of the text. *)
Fixpoint nl_read (fuel k : nat) (raw : bytes) : bytes * bytes :=
  match fuel with
  | O => ([], raw)
  | S fuel =>
      match raw with
      | [] => ([], [])
      | _ => match filter is_char (firstn k raw) with
             | [] => nl_read fuel k (skipn k raw)
             | g => (g, skipn k raw)
             end
      end
  end.
(** decoder.Read, "Refill buffer": until four characters are there or the text
    has ended; m is len(p). *)
Fixpoint refill (fuel m : nat) (buf raw : bytes) : bytes * bytes :=
  match fuel with
  | O => (buf, raw)
  | S fuel =>
      if (length buf <? 4)%nat then
        let nn := Nat.min 1024 (Nat.max 4 (m / 3 * 4)) in
        match nl_read (S (length raw)) (nn - length buf) raw with
        | ([], raw) => (buf, raw)
        | (g, raw) => refill fuel m (buf ++ g) raw
        end
      else (buf, raw)
  end.
(** The decoder: text not read yet, characters read but not decoded, bytes
    decoded but not delivered.  (readErr is not kept: at the end of the text
    another Read of it gives io.EOF again.) *)
Record b64_state := B64 { b_raw : bytes; b_buf : bytes; b_out : bytes }.
(** decoder.Read with len(p) = m: the bytes delivered, or [None] with [true]
    for io.EOF and [false] for any other error. *)
Definition b64_read (m : nat) (st : b64_state) : (bytes * b64_state) + bool :=
  match b_out st with
  | _ :: _ => inl (firstn m (b_out st), B64 (b_raw st) (b_buf st) (skipn m (b_out st)))
  | [] =>
      let (buf, raw) := refill 5 m (b_buf st) (b_raw st) in
      if (length buf <? 4)%nat then inr match buf with [] => true | _ => false end
      else
        let nr := length buf / 4 * 4 in
        match b64_groups (firstn nr buf) with
        | None => inr false
        | Some o => inl (firstn m o, B64 raw (skipn nr buf) (skipn m o))
        end
  end.
(** io.ReadAll: Read into what is left of a buffer that grows; [lens i] is the
    length offered to Read number i.  [Err tt] is any error but io.EOF. *)
Fixpoint b64_read_all (fuel : nat) (lens : nat -> nat) (i : nat) (st : b64_state) (acc : bytes) : outcome unit bytes :=
  match fuel with
  | O => Hang
  | S fuel =>
      match b64_read (lens i) st with
      | inl (o, st) => b64_read_all fuel lens (S i) st (acc ++ o)
      | inr true => OK acc
      | inr false => Err tt
      end
  end.
Definition read_base64 (lens : nat -> nat) (t : bytes) : outcome unit bytes :=
  b64_read_all (S (S (length t))) lens 0 (B64 t [] []) [].
