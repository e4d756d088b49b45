# Formal model of RobloxAPI/rbxfile in Rocq (Coq 8.16.1)

Source: `/repo` (Go, read as text; not built or run). Development: `/verif/rocq/theories`.
Properties: `properties.jsonl`; which theorems prove which: `MANIFEST.json`
(generated by `tools/manifest.py`); mutation log: `seeded/LOG.jsonl` (run by `tools/mut.py`).

## Layout

| file | contents |
|---|---|
| `Base.v` | bytes, little/big endian words, wrap-around integers, the `outcome` monad (OK / Err / Panic / Hang) |
| `RbxlValues.v` | `rbxl/values.go`: type ids, sizes, every `Bytes`/`FromBytes`, zigzag, float rotation |
| `RbxlArrays.v` | `rbxl/arrays.go`: transpose, interleave, typed arrays, reference deltas, optional arrays |
| `RbxlModel.v` | `rbxl/model.go`: chunk payloads, raw chunk framing (LZ4 is an arbitrary function pair) |
| `RbxlFile.v` | `rbxl/encoder.go`, `rbxl/decoder.go`: container encode/decode/decompress, stats |
| `RbxValues.v` | `values.go`: the root package's values, Type tables, Copy, UniqueId text |
| `Tree.v` | `file.go`, `ref.go`: heap of instances, References, Copy |
| `Errors.v` | `errors/errors.go` |
| `RbxlCodec.v` | `rbxl/codec.go`, `rbxl/cframe.go`: Root <-> format model |
| `RbxlApi.v`, `XmlApi.v` | exported `Encoder.Encode`, `Decoder.Decode` of `rbxl` |
| `XmlText.v` | `rbxlx`: strconv integers, base64, hex, escaping, decimal text |
| `XmlDoc.v` | `rbxlx/document.go`: parser and writer of documents |
| `XmlCodec.v` | `rbxlx/codec.go`, `rbxlx/format.go`: Root <-> document, exported Encode/Decode |
| `XmlFloats.v` | the contract of `strconv.ParseFloat`/`FormatFloat` (`strconv_ok`) and an executable instance |
| `Ieee.v` | Go's float/integer conversions on bit patterns |
| `Json.v` | `json/json.go`: Root <-> generic JSON values |
| `Declare.v` | `declare/`: declarations of trees, conversion of values, names of types |
| `IeeeNearest.v` | rounding is to the nearest float, ties to even |
| `*Proofs.v`, `RbxlCodec*.v`, `Xml*.v`, `Json*.v`, `Declare*.v` other than the above | lemmas |
| `Spec*.v` | small specifications the theorems are stated against |
| `Prop*.v` | the property theorems, with witness `Example`s and refutations |

Every definition of the model cites the file and lines it models, and says where it
simplifies.

## Trusted base

* Coq's kernel (8.16.1), with its `vm_compute` conversion, used for closed examples.
* Axioms: none. `Print Assumptions` answers "Closed under the global context" for every
  theorem named in `MANIFEST.json`. The build's report lists seven "library axioms": the fields
  of the module type `Coq.ssr.ssrunder.Under_rel` in Coq's own ssreflect plugin files, loaded
  by `lia`/standard library dependencies; no theorem depends on them. No axioms, `Variable`s outside sections, functors, module types or
  plugins of our own.
* That the model says what the Go code does: read by hand, function by function.
* The environment of the code, as parameters with stated laws, never as axioms:
  * LZ4 (`bkaradzic/go-lz4`): a pair of functions; round-trip theorems assume it is lossless
    (and for C20 that it fills the destination).
  * BLAKE2b: a function to 16 bytes; round-trip theorems assume no collision among the
    shared strings of the tree at hand.
  * `crypto/rand`: a stream of 16-byte groups; termination of `References.Get` assumes that
    it does not repeat itself forever (`never_repeats`).
  * Go map iteration order, and `sort.Sort` on more than twelve elements (unstable): arbitrary
    permutations (`env`, `orders_ok`).
  * `strconv` for floats: `strconv_ok` (what it prints with enough digits it reads back; one word;
    the printed text denotes a number within half a unit). An executable instance shows the
    contract is satisfiable.
  * `encoding/json`: `marshal` says which generic value a reader of the written text gets (finite
    numbers and UTF-8 text unchanged, other bytes replaced by U+FFFD, an error for infinities and NaN);
    the text itself is not modelled. float64 to integer conversions that do not fit are
    implementation-defined in Go: a parameter.
  * the quaternion conversion `ToCFrame` (never used by the encoder) is a parameter of the decoder;
    Quat.v says what a compilation of it may compute, as far as Go fixes that (C97). Division by
    255 in XML Color3 is a parameter; that it is the nearest float is a hypothesis of
    C75_packed_color, met by an executable division (C75_quotients).

## Conventions and simplifications

* A Go panic is a value (`Panic`), so "never panics" is a theorem, not an assumption. `Hang` is
  recursion without end (Go would exhaust the stack); loops carry fuel proved sufficient.
* Fixed-width integers are `Z`/`N` with explicit wrap; byte strings are `list byte` with
  Coq's 256-constructor `byte`, so no well-formedness hypothesis on raw input is needed.
* `float32`/`float64` are their IEEE bit patterns (`N`), because the formats only move bits
  (comparisons and decimal text are modelled on the patterns).
* Error values keep the kind and the numbers in the message where cheap; their texts
  are in ErrText.v (C105). Byte offsets in
  errors are dropped (kept in RbxlWriter.v and RbxlReader.v).
* A pointer to an instance is an address in a list of instances; 0 is nil. Parent pointers
  are not stored (they are derived: C30, C54 state the forest).
* Memory exhaustion (`make` with an attacker-chosen length) is not modelled. Readers and
  writers are non-nil and writers do not fail, except in C77 and C78; the reader of XML may end in any error, the
  reader of the binary format in EOF, except in C79.
* `github.com/anaminus/parse` BinaryReader/Writer is modelled from its documented behaviour
  (read exactly n little-endian bytes or fail; errors are sticky). The count `n` that
  `ReadFrom`/`WriteTo` return is not modelled.
* base64 text with padding in the middle: the codecs' models reject it. The real decoder does so
  for texts of up to 680 bytes and else depending on its buffers (C98, over a model of the decoder
  and `io.ReadAll` in Base64Reader.v).

* `rbxl/dump.go` (RbxlDump): the texts of floating point numbers and times, the tables of printable and
  graphic characters and the texts of errors are parameters; the chunk "as the error occurred" inside an
  errored chunk is an arbitrary chunk for C82-C86, and is modelled in RbxlPartial for C93 and C94 (a short
  `parse.BinaryReader.Bytes` fills the beginning of its slice, as `io.ReadFull` does); the writer is the list of bytes written to it.

Not modelled: in `cmd/`, the JSON text of `rbxfile-stat` (its counts are; arguments and files of the
commands are in Commands.v, where reading and writing an open file, Sync and Close do not fail); `Root.GetFullName`-like helpers that do not exist in this version.

## Properties: what is modelled and how it is proved

| | model | proof |
|---|---|---|
| C01, C02 | zigzag, float rotation with shifts and wrap as in Go | bijection by arithmetic characterisation |
| C03-C05 | the two loops of `interleave` over an updatable list | equal to the index formula; C05: panics iff empty (finding) |
| C06-C09 | every `Bytes`/`FromBytes` | case analysis, word round-trips, induction for sequences |
| C10 | reference deltas with wrap | induction on the list |
| C11-C13 | array decoding, optional arrays, CFrame arrays | induction; misdecoded optionals and the CFrame slice panic are refuted by witness, exact conditions proved |
| C14-C15 | payloads, framing | parser lemmas `read (write x ++ rest) = (x, rest)` |
| C16-C20, C41-C45 | file encode/decode/decompress, stats, layouts | induction over chunks; fuel proved sufficient; layouts stated against `SpecWire` byte grammars |
| C21-C23, C26-C28, C39, C40, C47 | codec encode over heap and map orders | shape of the output (`RbxlCodecShape`), then image of the tree (`RbxlCodecImage`) |
| C24, C25, C46 | encodeValue/decodeValue, rotation table, font tables | case analysis, finite sweeps of the tables |
| C29, C30, C48, C60 | codec decode of every file | invariant "state after a prefix of the chunks" (`after`), forest by ancestor induction |
| C31-C34 | Instance.Copy, Root.Copy, References | heap invariants; disjointness of the copy |
| C35-C38 | values, names, errors | direct |
| C49, C50, C52, C56, C58 | XML encoder, writer, parser, decoder | document round-trip of plain tags, then tree round-trip through the reference and shared string tables |
| C53 | values in text | per-type; decimal text by exact rational arithmetic (`XmlFloatsProofs`) |
| C51, C54, C55, C57, C59 | XML decoder on every byte string | parser totality by decreasing input; simulation of the two settings; warnings by accumulation |
| C61 | `Decoder.Decode` of both formats | combination |
| C62-C66 | JSON values, encoder on heaps, decoder on every document | per-type round trips; encoder invariant over the reference table; the decoder's domain by induction on documents; commuting property effects for C66 |
| C67 | `build` on a heap, tables of labels and properties | invariant of building a list of declarations; label table as a fold; properties set in any order |
| C68-C70 | `Type.value` and the norm functions on bit patterns | against `SpecDeclare`: the comment of Property as an inductive relation, IEEE rounding over Q |
| C72 | `ReadFrom` of XmlDoc, no bound | against `SpecXmlText`, a grammar as inductive relations: every phrase is read as stated, and where no phrase begins the reader fails |
| C73 | the same | `SpecXmlErrors`: lines as numbers of newlines before a position; an invariant of the reader's line counter (`XmlLines`) |
| C74 | `WriteTo`, `Encode` | against `SpecXmlWrite`, the text of a document as inductive relations; the relation is total and functional on named documents, and the codec makes only those; `C74_lines`: the tags with tags in them that stay on one line are exactly the contents |
| C75 | the value of a property tag, by a grammar per type (`means`, SpecXmlRead.v) independent of getValue | XmlReadProofs.v: strconv.ParseInt and the component loop against first-tag semantics (invariant over the tags read); XmlReadValues.v: hex, colors, float words; PropXmlRead.v: one case per type, both directions; PropColor.v: colors written as one integer |
| C76 | instances, properties, references, shared strings and metadata of a decoded document (`described`, `property`, `metadata`, SpecXmlTree.v), over the tag tree of C72 | XmlTreeRead.v: what each tag gives (`gives`) against getProperty; a step invariant over the recursion with the index of every instance; XmlTreeWrites.v: the later writes as one list, last write wins; PropXmlContents.v: indices to trees |
| C77 | encoder.go and rawChunk.WriteTo over a writer that answers any Write with any count and error (RbxlWriter.v) | SpecWriter: the io.Writer contract; the encoder as a list of writes and counts, run against the failing and the accepting writer side by side (RbxlWriterProofs) |
| C78 | the XML encoder with its error checks over a model of bufio.Writer (XmlWriter.v) | in step with XmlDoc.WriteTo until the first failed Write, then an invariant: no more calls, the text only grows (XmlWriterProofs) |
| C79 | the decoder over a reader given as pieces and a final error, io.ReadFull as its loop (RbxlReader.v) | readFull characterised by the concatenation; in step with RbxlFile.decode, and two readers in step with each other |
| C80 | `ValueFromJSON` against `SpecJsonRead.denotes` | induction on JSON values; rounding and truncation from DeclareNumbers |
| C81 | `RootFromJSON` on every document with distinct references, against `SpecJsonRead.instance_read` | invariant of the reader's state over the list of entries (JsonDoc) |
| C82 | `Decoder_Dump` (RbxlDump) over the model of decode | totality of the loops over arrays that reading produced (DumpFile.read_shape) |
| C83 | `dumpBytes` with its two counters | induction over rows; injectivity of hexadecimal |
| C84 | `dumpString`, strconv.Quote over UTF-8 pieces | pieces of a string are determined by their quoted forms (DumpQuote) |
| C85 | dump of chunks, arrays, values | every piece of the text is self-delimiting (`cut_` lemmas), so the text parses in one way |
| C86 | Dump methods against `SpecDump.item_of` | case by case |
| C87 | String methods with the loops of `joinstr`, CFrame and sequences | against templates in `SpecStrings`; case by case, induction on keypoints |
| C88 | the same, with `prints`: the documented promise of strconv | every template can be cut in one way (`fill_cut`); a text that reads back is injective; the promise is inhabited by `shortest` |
| C89 | `StatCmd.v`: `walk` with its callback statuses, `Fill`; the stack is fuel | a walk with constant status is a fold over the visits; `m[k]++` keeps a tally; reading maps in another order permutes the visits |
| C90 | `marshal_largest` with any order of the map and any sort | the table of C89; a prefix of a sorted list |
| C91 | `Fill` after `decode`/`codec_decode` or `xml_decode` | C30, C54 give the forest; on the cycle of C30 every fuel runs out |
| C92 | `report`: the two `if`s at the end of the commands | cases |
| C93 | `Dump` (RbxlDump with RbxlPartial); the listing is a tree of lines (`SpecDumpLayout.v`) | case analysis on chunks; the class map is the last INST chunk with the id |
| C94 | `Dump` (RbxlPartial): what the Decode methods leave behind when they fail | the arrays that are left have the size of their class, whatever the bytes (`partial_array_sized`), so only a missing inner cell can be nil |
| C95 | `partial_of` (RbxlPartial); spec `SpecPartial.begun`, `PropPartialCFrame` (planes of positions), `PropPartialMeta` (keys and hashes that were read are kept) | readers give the same on more bytes; induction on counts and on the nesting of optionals; transposition of the bytes there for CFrames |
| C96 | `mixed` (PropMixed.v) says for each type what each component becomes on its own; `C96_covers` shows by cases on the type and the number of values that own/documented/astray/unaccepted/mixed are all there is |
| C97 | Quat.v: the nine expressions of ToCFrame as trees; `value_of` lets every operation be rounded to the nearest float or fused; SpecQuat.v: quaternion product. Rounding error of one operation from `nearest` by a float on a grid of step 2^(k-24); error sums by linear arithmetic; the reals by `ring` |
| C98 | `io.ReadAll(base64.NewDecoder(...))` with its buffer, line-end filter and any sequence of read sizes (Base64Reader) | against `SpecBase64`, digits as one number in base 64; groups split and join at multiples of four |
| C99 | the codec, chunks and container as in C21-C23, run twice | the decoded heap is an image of the tree (RbxlCodecImage), its columns, shared strings in order of use, arrays and links are the stored ones (RbxlResaveTree), stored arrays have the bytes of the original (RbxlResave) |
| C100 | the XML codec and document as in C49-C54, run twice | the two encoders step by step (XmlResave): the second finds every reference the first gave out and makes no new one; a value and what it becomes are written as the same tag (XmlRetext, from the digits of floats in XmlFloatsFit); sorting makes the order of properties and metadata the same; what was loaded once meets the hypotheses (XmlSettle, PropXmlSettle) |
| C101 | both codecs and both file layers as in C23 and C49-C54, one after the other | the decoded tree is a forest with different property names (Convert: keys_ok, binary_loaded), its values are good for XML (carried_good, filled_good), then C49 and C50; the other way the XML tree is the original at other addresses, so what is written is the same (PropConvert), then C23 |
| C102 | Equal trees, wherever they are in the heap, are written equally; copies too | The encoder is run on both heaps in lock step (SameTree.v): numbering and links are images under phi, names of a class are permuted and the sort by name undoes it, warnings are permuted, every value is encoded to the same wire value. Copy: C31's is_copy gives phi. |
| C103 | arguments (flag.Parse without flags), file systems with links, main of the commands (`Commands`) | case analysis over `SpecCommands` (where input comes from, where output goes); composed with C20 |
| C104 | the codecs of both formats | C50 and `kept` give the same tree at other addresses; C102 and C99 |
| C105 | ErrText.v: Error and Unwrap of the wrappers, and the error value of each constructor of err, warning and cwarn | PropErrText.v against SpecErrText.v: induction on the error; an invariant of the codec's loop says that its warnings hold no names |
| C71 | `TypeFromString` over a permutation of the map | case folding relation |

## Findings (the model proves each of these)

1. `interleave` of an empty array panics, so writing an empty group's array panics (C05).
2. Optional arrays whose inner type is interleaved are decoded wrongly (C12).
3. CFrame arrays: slice past capacity panics on short input (C13).
4. `rawChunk.Decode` panics if compressedLength is at least 2^32-4 (C17).
5. `codec.Encode` panics or recurses forever on untyped/mixed/nested optionals, shared or
   cyclic instances, nil children (C47); optional references and shared strings lose their value (C23).
6. `codec.Decode` panics on a present cell of an optional reference/shared string column (C29);
   cycles and duplicate links are accepted (C30).
7. Missing references, shared strings and CFrames get wrong defaults (C28).
8. `sortMetaData.Less` compares a key with a value (C27).
9. `Encoder.Encode` drops the codec's warnings (C39).
10. `ValueFont.Copy` sets CachedFaceId to Family (C35); `Root.Copy` drops Metadata (C31).
11. `DecoderStats.Chunks` counts errored chunks differently from its documentation (C43).
12. `Tag.SetAttrValue` in rbxlx assigns to the copy of the range variable.
13. Special CFrame rotations are looked up with float `==`: negative zeros are lost (C24/C25).
14. `Decompress` zeroes the reserved bytes (C20).
15. `Instance.Copy` does not redirect references in optionals (C32).
16. `References.Resolve` is documented differently for empty references (C34).
17. Optional UniqueId values are written in Model mode (C40).
18. XML: Font decode panic (C51); protected strings with `]]>` end the CDATA section and
    inject markup (C53_injection_refuted); Ray direction read from origin; BrickColor read as Int; doubles
    with nine digits, sequences with six; Font weights of 2^15 and more lose the style; optionals other
    than CFrame lost; `\r` lost; a lone comment is a valid document; a nil root panics;
    DiscardInvalidProperties does not discard failing components (C55).
19. JSON: a child is stored past the end of an empty slice, so no tree of depth two can be read (C63);
    base64 encoders are not closed, so one or two bytes are lost; optional types are written as numbers and
    read as strings (panic); unique ids, fonts and metadata are dropped; missing members panic (C65).
20. declare: text given to BinaryString, ProtectedString or Content makes a ValueString and a Double a ValueFloat; the
    rotation of a ten-value CFrame is shifted; groups of numbers in sequences are dropped; the maximum of a Rect of two
    Vector2s is the minimum; a ColorSequence of one value panics (C68, C69).
21. XML reader (C72): an empty tag without a space before the slash is read as a start tag; an XML declaration,
    single quotes, CDATA after text are rejected; a lone ampersand swallows the next word and a quote; a start tag with
    an attribute without value is dropped together with the text up to the next ">"; names of end tags are not compared;
    the indentation of a document is skipped before it is looked at, so it is never detected.
22. An error of the byte reader between two tags is reported as an unclosed tag; a document truncated right after a start
    tag gives io.EOF itself (C73).
23. The writer's depth drifts after a last subtag without a name (C74_drift); the codec never makes one.
24. An integer component out of range (say `<Y>99999</Y>` of a Vector3int16) makes components.getFrom return true at once (codec.go:1003-1072): the components after it are left zero although they are in the file, and missing ones are not noticed (C75_cut_refuted). 25. The text of a UniqueId is read although a CDATA section is there, unlike in every other type (codec.go:929, C75_uniqueid_refuted). 26. An invalid CFrame becomes a matrix of zeros, where NewValue would give the identity (codec.go:478, C75_zero).
27. In rbxlx, references and shared strings are put into instances after all other properties, so `<Ref name="p">` wins over a `<string name="p">` written after it (codec.go:79-121; C76_example). A reference to a referent that no Item has becomes a nil reference without a warning.
28. `DataError.Offset` of the encoder counts every payload twice: `fw.Add(chunk.WriteTo(buf))` (encoder.go:101) adds what is written to a buffer in memory (C77_offset, C77_full_disk). A writer failing with an empty `errors.Errors` is reported as success (encoder.go:42, C77_no_errors_refuted). `Decompress` tests its reader for nil but not its writer, and panics (decoder.go:70, C77_decompress_nil_refuted).
29. (C81) `json` Decode: two entries with the same "reference" are read as one instance, which the root then lists twice; the later class name wins and the properties are merged. An entry without a class name still claims its reference: properties that refer to it get an instance that is not in the tree.
30. (C82) `Decoder.Dump` panics with a nil dereference on an optional column inside an optional column when an inner cell is missing (`arrays.go:1470` calls Dump on the nil result of Get); `Decode` accepts such a file if the outer cell is missing too. The error of the final `bw.Flush()` (`dump.go:47`) is dropped: Dump returns nil although the writer failed.
31. (C86) Dump of a UDim2 swaps labels: `Y.Scale` shows Offset.X and `X.Offset` shows Scale.Y (`values.go:942`); a CFrameQuat has no newline before `Position` (`values.go:1552`); `dumpSig` writes bytes from 0xA1 on raw, which is not UTF-8.
32. (C91) A binary file with a cycle of parents decodes without an error, and `rbxfile-stat` on it recurses until the stack overflows.
33. (C92) All three commands wrap `warn` in the error line (`cmd/*/main.go`): the error of a failed decode is never shown.
34. (C94) `Decoder.Dump` panics on a chunk that decoding only warns about: a column of bytes `1E 1E 02 01` that breaks off leaves an optional whose cells are missing, and `arrayOptional.Dump` calls a method of the nil that `Get` returns.
35. (C96) A declaration with the right number of values of the wrong kind is not the zero value, against the comment on `Property`: `Property("P", CFrame, ...)` with twelve values that are not numbers has the rotation 0 and not the identity, and a PhysicalProperties of three such values has CustomPhysics set.
36. Base64 text longer than 680 bytes with padding in the middle is accepted or rejected depending on where the padding falls in the buffers of `io.ReadAll` and `base64.NewDecoder` (C98).
37. A file with two or more metadata entries is not stable: loading and saving it reverses or reorders the META chunk each time, even if Go ranged over the map in a fixed order (C99_metadata_refuted; same cause as the sort of finding in C27).
38. Loading and saving an XML file is not always a fixed point of the text: a reference that leaves the saved tree becomes `null` (C100_outside_refuted), with ExcludeReferent all references do (C100_noref_refuted), and tokens and brick colors of 2^31 or more, fonts with an unnamed style or a weight of 2^15 or more and carriage returns change (C100_values_refuted).
39. A binary string with a carriage return survives both formats, and a conversion from XML to the binary format, but not one from the binary format to XML: the binary format makes a string of it, and XML turns the carriage return of a string into a line feed (C101_binary_refuted).
40. (C102) Copying a tree and saving it changes the file when a Font has a cached face other than its family: ValueFont.Copy sets CachedFaceId to the family (finding of C35), and the encoder writes CachedFaceId.
41. (C103) `rbxfile-dcomp F F` and `rbxfile-dump F F` empty the file F: os.Create truncates it before it is read (`cmd/*/main.go`). A failed run also empties OUTPUT and exits with status 0.
42. (C104) Converting a place to XML and back changes it: the XML format has no place for IsService, and no table of service classes is consulted, so every service is saved as an ordinary instance.
43. (C105) Warnings of encoding put class names and property names into their text as they are (codec.go:565, :571), so a line break in a name makes a second line that looks like another warning; the texts about files have no such hole. Encoder.Encode loses these warnings today (C39), so the hole opens when that is mended. ChunkError and ValueError call the Error method of a nil cause and panic, where DataError, CodecError and XMLError check it (errors.go:71-73, 147-153).
