(** SpecDumpLayout.v - specification side for the layout of a whole dump:
    which line shows what, and how far it is indented. *)
From Verif Require Import Base RbxlValues RbxlArrays RbxlModel RbxlFile RbxValues SpecValues SpecArrays XmlText RbxlDump SpecDump.

(** Lines, and groups of lines that are indented by one more tab.  The text of
    a line may depend on the indentation: bytes are shown over several lines. *)
Inductive node := Line (text : nat -> bytes) | Group (l : list node).
Fixpoint render (k : nat) (n : node) : bytes :=
  match n with
  | Line text => x0a :: repeat x09 k ++ text k
  | Group l => flat_map (render (S k)) l
  end.
Definition words (s : bytes) : node := Line (fun _ => s).
Definition block (head : bytes) (body : list node) : list node := [words (head ++ str "{"); Group body; words (str "}")].
Definition dec (n : nat) : bytes := FormatInt (Z.of_nat n).
Definition enumerate {A} (l : list A) : list (nat * A) := combine (seq 0 (length l)) l.

(** A signature as text and as bytes *)
Definition two_HEX (c : byte) : bytes :=
  [nth (N.to_nat (b2N c) / 16) (str "0123456789ABCDEF") x00; nth (N.to_nat (b2N c) mod 16) (str "0123456789ABCDEF") x00].
Definition sig_char (c : byte) : byte :=
  if ((b2N c <? 32) || (126 <? b2N c) && (b2N c <? 161) || (b2N c =? 173))%N then x2e else c.
Definition sig_text (a b c d : byte) : bytes :=
  map sig_char [a; b; c; d] ++ str " (" ++ two_HEX a ++ str " " ++ two_HEX b ++ str " " ++ two_HEX c ++ str " " ++ two_HEX d ++ str ")".
(** The four bytes of a chunk's signature *)
Definition sig_of (p : payload) : bytes :=
  match p with
  | PMeta _ => str "META" | PSstr _ _ => str "SSTR" | PInst _ _ _ _ _ => str "INST" | PProp _ _ _ => str "PROP"
  | PPrnt _ _ _ => str "PRNT" | PEnd _ => str "END" ++ [x00]
  | PUnknown s _ | PErrored s _ _ _ =>
      [N2b (s mod 256); N2b (s / 256 mod 256); N2b (s / 65536 mod 256); N2b (s / 16777216 mod 256)]%N
  end.
Definition sig_line (p : payload) : bytes :=
  match sig_of p with [a; b; c; d] => sig_text a b c d | _ => [] end.

(** The names of the types, in the order of their bytes from 1; 29 is no type. *)
Definition type_names : list bytes :=
  [str "String"; str "Bool"; str "Int"; str "Float"; str "Double"; str "UDim"; str "UDim2"; str "Ray"; str "Faces"; str "Axes"; str "BrickColor";
   str "Color3"; str "Vector2"; str "Vector3"; str "Vector2int16"; str "CFrame"; str "CFrameQuat"; str "Token"; str "Reference"; str "Vector3int16";
   str "NumberSequence"; str "ColorSequence"; str "NumberRange"; str "Rect"; str "PhysicalProperties"; str "Color3uint8"; str "Int64"; str "SharedString";
   []; str "Optional"; str "UniqueId"; str "Font"].
Definition type_text (t : tid) : bytes :=
  let n := N.to_nat (b2N (tid_byte t)) in str "(type:" ++ dec n ++ str ") " ++ nth (n - 1) type_names [].
Definition column_nodes (de : denv) (a : array) : list node :=
  let head n t := str "Properties: (count:" ++ dec n ++ str ", " ++ type_text t ++ str ") " in
  match a with
  | ARR t vs =>
      block (head (length vs) t) (map (fun iv => Line (fun k => dec (fst iv) ++ str ": " ++ dump_value de k (snd iv))) (enumerate vs))
  | AOPT None ps => [words (head 0 tOptional ++ str "none")]
  | AOPT (Some (ARR t vs)) ps =>
      (* a cell that is missing shows what is stored in its place *)
      [words (head (length vs) tOptional ++ str "(" ++ type_text t ++ str ") {");
       Group [Group (map (fun ipv => match ipv with (i, (p, v)) =>
           Line (fun k => dec i ++ str ": " ++ if p : bool then dump_value de k v else str "none (" ++ dump_value de k v ++ str ")") end)
           (enumerate (combine ps vs)));
         words (str "}")]]
  | AOPT (Some (AOPT _ _)) _ => []
  end.

(** The class with an id: the last INST chunk so far. *)
Fixpoint last_class (seen : list payload) (id : Z) : option (nat * bytes) :=
  match seen with
  | [] => None
  | p :: seen =>
      match last_class seen id, p with
      | Some c, _ => Some c
      | None, PInst id' name ids _ _ => if (id' =? id)%Z then Some (length ids, name) else None
      | None, _ => None
      end
  end.
(** Only in a chunk that was partly read is one list shorter than another. *)
Definition id_or_invalid (l : list Z) (i : nat) : bytes := match nth_error l i with Some z => FormatInt z | None => str "invalid" end.
(** The lines of a chunk that could be read. *)
Definition payload_nodes (de : denv) (seen : list payload) (p : payload) : list node :=
  match p with
  | PMeta vs =>
      words (str "Count: " ++ dec (length vs)) ::
      flat_map (fun kv => block [] [Line (fun k => str "Key: " ++ dumpString de k (fst kv)); Line (fun k => str "Value: " ++ dumpString de k (snd kv))]) vs
  | PSstr version vs =>
      words (str "Version: " ++ FormatInt (Z.of_N version)) ::
      block (str "Values: (count:" ++ dec (length vs) ++ str ") ")
        (flat_map (fun ihv => block (dec (fst ihv) ++ str ": ")
           [Line (fun k => str "Hash: " ++ dumpBytes k (fst (snd ihv))); Line (fun k => str "Value: " ++ dumpBytes k (snd (snd ihv)))])
         (enumerate vs))
  | PInst id name ids service gets =>
      words (str "ClassID: " ++ FormatInt id) :: Line (fun k => str "ClassName: " ++ dumpString de k name) ::
      block (str "InstanceIDs: (count:" ++ dec (length ids) ++ (if service then str ") (service) " else str ") "))
        (map (fun ii => words (dec (fst ii) ++ str ": " ++ FormatInt (snd ii) ++
           if service
           then str " (" ++ match nth_error gets (fst ii) with Some g => FormatInt (Z.of_N (b2N g)) | None => str "invalid" end ++ str ")"
           else [])) (enumerate ids))
  | PProp id name props =>
      Line (fun k => str "ClassID: " ++ FormatInt id ++
        match last_class seen id with
        | Some (n, cname) => str " (count:" ++ dec n ++ str ", " ++ dumpString de k cname ++ str ")"
        | None => []
        end) ::
      Line (fun k => str "PropertyName: " ++ dumpString de k name) :: match props with Some a => column_nodes de a | None => [] end
  | PPrnt version children parents =>
      [words (str "Version: " ++ FormatInt (Z.of_N version)); words (str "Values (child : parent)");
       Group (map (fun i => words (id_or_invalid children i ++ str " : " ++ id_or_invalid parents i))
                (seq 0 (Nat.max (length children) (length parents))))]
  | PEnd content => [Line (fun k => str "Content: " ++ dumpString de k content)]
  | PUnknown _ content => [words (str "<unknown chunk signature>"); Line (fun k => str "Bytes: " ++ dumpBytes k content)]
  | PErrored _ _ _ _ => []
  end.
Definition state_text (compressed : bool) : bytes := if compressed then str " (compressed) " else str " (uncompressed) ".
(** A chunk with its number.  An errored chunk shows the chunk as far as it was
    read, [inner], and all of its bytes. *)
Definition chunk_nodes (de : denv) (i : nat) (seen : list payload) (inner : payload) (c : chunk) : list node :=
  let p := ch_payload c in
  block (str "#" ++ dec i ++ str ": " ++ sig_line p ++ state_text (ch_compressed c))
    match p with
    | PErrored _ offset cause content =>
        [words (str "<errored chunk>"); words (str "Offset: " ++ dec offset); words (str "Error: " ++ de_error de cause); words (str "Chunk:");
         Group (block (sig_line p ++ state_text (ch_compressed c)) (payload_nodes de seen inner));
         Line (fun k => str "Bytes: " ++ dumpBytes k content)]
    | p => payload_nodes de seen p
    end.
(** What is in the file up to chunk i, errored chunks as far as they were read *)
Definition as_read (inner : nat -> payload) (ic : nat * chunk) : payload :=
  match ch_payload (snd ic) with PErrored _ _ _ _ => inner (fst ic) | p => p end.
Definition file_nodes (de : denv) (inner : nat -> payload) (f : fmodel) : list node :=
  [words (str "Version: " ++ FormatInt (Z.of_N (fm_version f))); words (str "Classes: " ++ FormatInt (Z.of_N (fm_classCount f)));
   words (str "Instances: " ++ FormatInt (Z.of_N (fm_instCount f)))] ++
  block (str "Chunks: ")
    (flat_map (fun ic => chunk_nodes de (fst ic) (map (as_read inner) (firstn (S (fst ic)) (enumerate (fm_chunks f)))) (inner (fst ic)) (snd ic))
       (enumerate (fm_chunks f))).
(** The text begins with the first line instead of a newline. *)
Definition file_text (de : denv) (inner : nat -> payload) (f : fmodel) : bytes := tl (flat_map (render 0) (file_nodes de inner f)).

(** A column in the file, as far as it was read *)
Definition column_read (inner : nat -> payload) (f : fmodel) (a : array) : Prop :=
  exists ic id name, In ic (enumerate (fm_chunks f)) /\ as_read inner ic = PProp id name (Some a).
