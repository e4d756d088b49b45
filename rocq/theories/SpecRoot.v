(** SpecRoot.v - specification side for the root package's values. *)
From Verif Require Import Base RbxlValues RbxValues.

(** The fonts inside a value, as (family, cached face id). *)
Fixpoint fonts (v : rvalue) : list (bytes * bytes) :=
  match v with
  | RFont family _ _ cached => [(family, cached)]
  | ROptional _ (Some v) => fonts v
  | _ => []
  end.

(** A value with storage denotes a plain value. *)
Definition as_bytes (b : buffer) : bytes := match b with BBytes s => s | _ => [] end.
Fixpoint denote (m : store) (v : mvalue) : rvalue :=
  match v with
  | MPlain v => v
  | MSlice k a =>
      match k, load m k a with
      | KString, b => RString (as_bytes b)
      | KBinaryString, b => RBinaryString (as_bytes b)
      | KProtectedString, b => RProtectedString (as_bytes b)
      | KContent, b => RContent (as_bytes b)
      | KSharedString, b => RSharedString (as_bytes b)
      | KNumberSequence, b => RNumberSequence (match b with BNum ks => ks | _ => [] end)
      | KColorSequence, b => RColorSequence (match b with BCol ks => ks | _ => [] end)
      end
  | MOptional t (Some v) => ROptional t (Some (denote m v))
  | MOptional t None => ROptional t None
  | MFont f w s c => RFont (as_bytes (load m KContent f)) w s (as_bytes (load m KContent c))
  end.
(** The allocations a value refers to. *)
Fixpoint addrs (v : mvalue) : list nat :=
  match v with
  | MPlain _ => []
  | MSlice _ a => [a]
  | MOptional _ (Some v) => addrs v
  | MOptional _ None => []
  | MFont f _ _ c => [f; c]
  end.
(** [MPlain] is used for values without slices only. *)
Fixpoint wf_mvalue (v : mvalue) : Prop :=
  match v with
  | MPlain v =>
      match v with
      | RString _ | RBinaryString _ | RProtectedString _ | RContent _ | RSharedString _
      | RNumberSequence _ | RColorSequence _ | RFont _ _ _ _ | ROptional _ _ => False
      | _ => True
      end
  | MOptional _ (Some v) => wf_mvalue v
  | _ => True
  end.

(** Hexadecimal text, two digits a byte, high digit first. *)
Definition hex (table : String.string) (b : byte) : bytes :=
  [nth (N.to_nat (b2N b / 16)) (str table) x00; nth (N.to_nat (b2N b mod 16)) (str table) x00].
(** A version 4, RFC 4122 identifier made from 16 random bytes. *)
Definition v4_byte (i : nat) (b : byte) : byte :=
  if (i =? 6)%nat then N2b (0x40 + b2N b mod 16)
  else if (i =? 8)%nat then N2b (0x80 + b2N b mod 64)
  else b.
