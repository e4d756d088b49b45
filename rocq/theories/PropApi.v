(** PropApi.v - C61: Decode of any bytes at all. *)
From Verif Require Import Base RbxlValues RbxlArrays RbxlModel RbxlFile RbxlFileProofs RbxValues Tree RbxlCodec RbxlApi XmlText XmlDoc XmlCodec XmlApi
  SpecValues SpecModel SpecWire SpecFile SpecArrays SpecTree SpecCodec SpecTables SpecDecode SpecXml SpecXmlDecode RbxlModelProofs TreeProofs RbxlCodecTree RbxlCodecForest RbxlArraysProofs PropArrays PropFile PropDecode PropXmlDecode.

(** The ways in which Decode can panic: a compressed length that overflows, a
    CFrame array that is cut short, a cell of an optional column that holds no
    value, a Font tag with a weight out of range before its family. *)
Inductive trap (lz : lz4) (spare : nat -> nat) (noXML : bool) (input : bytes) : Prop :=
| trap_length pre sg cl r : input = pre ++ emit [LE 4 sg; LE 4 cl] ++ r -> f32 cl -> (2 ^ 32 <= cl + 4)%N -> trap lz spare noXML input
| trap_cframe n raw : cframe_positions_missing (spare (length raw)) n raw -> trap lz spare noXML input
| trap_cell f ws st g name a : decode lz spare noXML input = OK (DModel f, ws, st) ->
    In (g, name, Some a) (columns_in (fm_chunks f)) -> unreadable a -> trap lz spare noXML input
| trap_font d t u : noXML = false -> ReadFrom input XEOF = OK d -> doc_root d = Some t -> within u t -> font_trap u -> trap lz spare noXML input.

(** Decode of any bytes gives a tree or an error, or panics in one of these
    ways.  It always ends. *)
Theorem C61_decode_total : forall lz spare q2m env noXML input,
  (exists r h ws, Decode lz spare q2m env noXML input = OK (r, h, ws)) \/
  (exists e ws, Decode lz spare q2m env noXML input = Err (e, ws)) \/
  (Decode lz spare q2m env noXML input = Panic /\ trap lz spare noXML input).
Proof.
  intros lz spare q2m env noXML input. destruct (C17_decode_total lz spare noXML input) as [Hh Hp]. unfold Decode, Decoder_Decode.
  destruct (decode lz spare noXML input) as [[[[b|f] ws] st]|[[e ws] st]| |] eqn:Ed.
  - destruct (C18_bad_header_rejected lz spare noXML input) as (_ & X & _). destruct (proj1 (X b ws st) Ed) as (-> & _ & _ & -> & _).
    unfold legacy. destruct (C51_decode_total env false input XEOF) as [(r & h & w & E)|[(e & w & E)|[E (d & t & u & E1 & E2 & E3 & E4)]]]; rewrite E; [left; eauto|right; left; eauto|right; right].
    split; [reflexivity|]. now apply (trap_font lz spare false input d t u).
  - destruct (C29_panic_only _ _ _ _ _ _ _ q2m Ed) as [Nh Np]. destruct (codec_decode q2m f) as [[[r h] cws]|[e cws]| |] eqn:Ec; [left; eauto|right; left; eauto| |contradiction].
    right; right. split; [reflexivity|]. destruct (Np eq_refl) as (g & name & a & H1 & H2). exact (trap_cell lz spare noXML input f ws st g name a Ed H1 H2).
  - right; left; eauto.
  - right; right. split; [reflexivity|]. destruct (Hp eq_refl) as [(pre & sg & cl & r & H1 & H2 & H3)|(n & raw & H)]; [exact (trap_length _ _ _ _ pre sg cl r H1 H2 H3)|exact (trap_cframe _ _ _ _ n raw H)].
  - contradiction.
Qed.
(** Text that starts like the XML format is decoded as that format and nothing
    else, unless this is turned off. *)
Theorem C61_legacy : forall lz spare q2m env c rest, c <> x21 ->
  let input := str "<roblox" ++ c :: rest in
  Decode lz spare q2m env false input = legacy env input /\ exists e ws, Decode lz spare q2m env true input = Err (e, ws).
Proof.
  intros lz spare q2m env c rest Hc input. destruct (C18_bad_header_rejected lz spare false input) as (_ & X & _).
  destruct (C18_bad_header_rejected lz spare true input) as (A & B & Y). unfold Decode, Decoder_Decode. split.
  - assert (Ed : decode lz spare false input = OK (DXml input, [], Stats true 0 0 0 0 [])); [|now rewrite Ed].
    apply X. repeat split. exists c, rest. now split.
  - destruct Y as (e & st & E); [|now left|]; [|rewrite E; eauto]. intros cc ic rsv b _ Hin. unfold input in Hin. rewrite header_eq in Hin. cbn in Hin. congruence.
Qed.
