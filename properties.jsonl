{"id": "C01", "title": "Zigzag integers are lossless", "statement": "Encoding an Int or Int64 property value and decoding the bytes gives back the same integer, and every 32/64-bit word is the encoding of exactly one integer (the transform is a bijection); small magnitudes map to small words.", "quantifier": "all int32 / int64 values and all uint32 / uint64 words", "why_tests_cant": "2^64 values, with sign and overflow corner cases; samples miss wrap-around errors", "anchors": ["rbxl/values.go:encodeZigzag32", "rbxl/values.go:decodeZigzag32", "rbxl/values.go:encodeZigzag64", "rbxl/values.go:decodeZigzag64"]}
{"id": "C02", "title": "Float bit rotation is lossless", "statement": "Encoding a Float (binary32) property and decoding it gives a bit-identical float, including NaN payloads, signed zeros and infinities, and every 32-bit word decodes to exactly one float.", "quantifier": "all 2^32 float bit patterns", "why_tests_cant": "NaN payloads and signed zeros compare unequal/equal in ordinary tests, so tests do not see lost bits", "anchors": ["rbxl/values.go:encodeRobloxFloat", "rbxl/values.go:decodeRobloxFloat"]}
{"id": "C03", "title": "Interleaving is the documented transposition", "statement": "For an array of count elements of size bytes, byte i of element j is written at position i*count+j, no byte is lost, duplicated or changed, and the length is preserved.", "quantifier": "all byte arrays, all sizes >= 1 dividing the array length (square or not)", "why_tests_cant": "the in-place square branch and the index-walking branch are different algorithms; correctness must hold for every pair of dimensions", "anchors": ["rbxl/arrays.go:transpose", "rbxl/arrays.go:interleave", "rbxl/arrays.go:deinterleave"]}
{"id": "C04", "title": "Deinterleave undoes interleave", "statement": "Deinterleaving an interleaved array gives the original array and vice versa; sizes that are not positive or do not divide the length give an error and leave the bytes alone.", "quantifier": "all byte arrays and all sizes, except the empty array for interleave (see C05)", "why_tests_cant": "every dimension must be covered", "anchors": ["rbxl/arrays.go:interleave", "rbxl/arrays.go:deinterleave"]}
{"id": "C05", "title": "Empty arrays", "statement": "Writing an array with no elements should succeed and write nothing. (Interleaving an empty array divides by zero in this code; the exact panic condition is characterised.)", "quantifier": "all array types and lengths", "why_tests_cant": "a crash for one length of some types", "anchors": ["rbxl/arrays.go:interleave", "rbxl/arrays.go:transpose", "rbxl/arrays.go:arrayToBytes"]}
{"id": "C06", "title": "Every single value round-trips", "statement": "For every binary value type, decoding the encoding of a value followed by arbitrary bytes gives the same value (up to fields the format does not store) and reports exactly the number of bytes the encoding used.", "quantifier": "all values of all 30 binary value types, all trailing bytes", "why_tests_cant": "unbounded strings and sequences, all bit patterns", "anchors": ["rbxl/values.go:value.Bytes", "rbxl/values.go:value.FromBytes"]}
{"id": "C07", "title": "Declared sizes are exact", "statement": "The declared byte length of a value or array equals the number of bytes that encoding appends, and agrees with the type's declared constant or conditional size; encoding only appends.", "quantifier": "all values and arrays of all types", "why_tests_cant": "buffers are preallocated and chunk lengths derived from it", "anchors": ["rbxl/values.go:BytesLen", "rbxl/values.go:Size", "rbxl/values.go:CondSize", "rbxl/arrays.go:BytesLen"]}
{"id": "C08", "title": "Decoding a value never panics and never over-reads", "statement": "Decoding any value type from any bytes either succeeds having consumed at most the available bytes, or returns an error; it never panics.", "quantifier": "all byte strings (arbitrary, malicious) and all value types", "why_tests_cant": "adversarial inputs; tests use well-formed files", "anchors": ["rbxl/values.go:FromBytes", "rbxl/values.go:checkLengthConst", "rbxl/values.go:checkLengthArray", "rbxl/values.go:checkLengthCond", "rbxl/values.go:fromBytes"]}
{"id": "C09", "title": "Truncated values are rejected", "statement": "If the bytes are a strict prefix of a value's encoding then decoding returns an error rather than a wrong value.", "quantifier": "all values, all truncation points", "why_tests_cant": "every crash/truncation point of every value", "anchors": ["rbxl/values.go:FromBytes"]}
{"id": "C10", "title": "Reference delta coding round-trips", "statement": "The list of instance ids in INST/PRNT chunks and reference properties, stored as wrapped differences, is restored exactly for every list of 32-bit ids, including differences that overflow.", "quantifier": "all int32 lists of every length", "why_tests_cant": "overflowing differences and long lists", "anchors": ["rbxl/arrays.go:arrayReference.Bytes", "rbxl/arrays.go:arrayReference.FromBytes", "rbxl/arrays.go:refArrayToBytes", "rbxl/arrays.go:refArrayFromBytes"]}
{"id": "C11", "title": "Property arrays round-trip", "statement": "A typed array of property values (interleaved or not, CFrame with separated positions, references by delta) encodes with its type byte and decodes to the same array, for arrays of every type and length, and consumes the bytes exactly.", "quantifier": "all arrays of all non-optional types and lengths", "why_tests_cant": "combination of all types and lengths", "anchors": ["rbxl/arrays.go:typeArrayToBytes", "rbxl/arrays.go:typeArrayFromBytes", "rbxl/arrays.go:arrayCFrame.FromBytes", "rbxl/arrays.go:arrayCFrameQuat.FromBytes"]}
{"id": "C12", "title": "Optional arrays", "statement": "An array of optional values round-trips, including which elements are absent. (Characterised: holds for value types that are not interleaved; for interleaved inner types decoding misreads.)", "quantifier": "all optional arrays of all inner types and lengths", "why_tests_cant": "interaction between nested decoding and interleaving", "anchors": ["rbxl/arrays.go:arrayOptional.Bytes", "rbxl/arrays.go:arrayOptional.FromBytes"]}
{"id": "C13", "title": "Array decoding is safe on arbitrary bytes", "statement": "Decoding a typed property array from arbitrary bytes returns a value or an error and never panics. (CFrame arrays slice without checking the length; the exact panic condition is characterised.)", "quantifier": "all byte strings, all lengths", "why_tests_cant": "adversarial inputs", "anchors": ["rbxl/arrays.go:typeArrayFromBytes", "rbxl/arrays.go:arrayCFrame.FromBytes", "rbxl/arrays.go:arrayCFrameQuat.FromBytes"]}
{"id": "C14", "title": "Chunk payloads round-trip", "statement": "Each chunk kind (META, SSTR, INST, PROP, PRNT, END) written and read back is the same chunk, with all bytes consumed.", "quantifier": "all chunk contents whose lengths fit in 32 bits", "why_tests_cant": "unbounded lists of strings, ids, values", "anchors": ["rbxl/model.go:chunkMeta", "rbxl/model.go:chunkSharedStrings", "rbxl/model.go:chunkInstance", "rbxl/model.go:chunkProperty", "rbxl/model.go:chunkParent", "rbxl/model.go:chunkEnd"]}
{"id": "C15", "title": "Chunk framing round-trips", "statement": "A raw chunk (signature, compression flag, payload) written to a stream followed by any other bytes is read back exactly, leaving exactly those other bytes, compressed or not, for any lossless compressor.", "quantifier": "all signatures, payloads, trailing bytes, all compressors satisfying the lossless law", "why_tests_cant": "every payload and every lossless compressor", "anchors": ["rbxl/model.go:rawChunk.Decode", "rbxl/model.go:rawChunk.WriteTo"]}
{"id": "C16", "title": "File container round-trips", "statement": "A format model written to bytes and decoded gives the same header counts, the same chunks in order, and the same trailing bytes, with no warnings for a well-formed model.", "quantifier": "all well-formed models: any number of chunks of any kind, both compression settings", "why_tests_cant": "unbounded chunk sequences", "anchors": ["rbxl/encoder.go:Encoder.encode", "rbxl/decoder.go:Decoder.decode", "rbxl/decoder.go:Decoder.decodeChunks"]}
{"id": "C17", "title": "Decoding a file never loops or loses sync", "statement": "The container decoder terminates on every byte string; after success the chunks' framed sizes plus header plus trailing equals the input length (every byte is accounted for), and chunks after END are only trailing bytes.", "quantifier": "all byte strings", "why_tests_cant": "adversarial inputs, unbounded lengths", "anchors": ["rbxl/decoder.go:Decoder.decode", "rbxl/decoder.go:Decoder.decodeChunks", "rbxl/model.go:rawChunk.Decode"]}
{"id": "C18", "title": "Bad headers are rejected", "statement": "A stream not beginning with the signature, the magic and version 0 is never decoded as a binary file; each is an error (or is handed to the XML decoder with the original bytes intact when the marker is absent).", "quantifier": "all byte strings", "why_tests_cant": "all inputs", "anchors": ["rbxl/decoder.go:Decoder.decode"]}
{"id": "C19", "title": "Errored chunks are contained", "statement": "A chunk whose payload cannot be parsed does not abort decoding: it yields one warning, its bytes are kept, and the following chunks are decoded as if from the same position.", "quantifier": "all byte strings of chunks", "why_tests_cant": "all payload corruptions", "anchors": ["rbxl/decoder.go:Decoder.decodeChunks", "rbxl/model.go:chunkErrored"]}
{"id": "C20", "title": "Decompress preserves content", "statement": "Decompressing a file yields a file with the same header fields, the same chunk signatures and uncompressed payloads in the same order, and the same trailing bytes; decoding the output equals decoding the input; decompressing twice equals decompressing once.", "quantifier": "all binary inputs accepted by Decompress, all lossless compressors", "why_tests_cant": "all files", "anchors": ["rbxl/decoder.go:Decoder.Decompress", "rbxl/decoder.go:Decoder.decompressChunks"]}
{"id": "C21", "title": "Tree numbering on encode", "statement": "Encoding numbers every instance reachable from the root exactly once in depth-first pre-order, ids are 0..n-1, and each id appears in exactly one INST group and exactly once in PRNT.", "quantifier": "all instance forests of any size and shape", "why_tests_cant": "all tree shapes", "anchors": ["rbxl/codec.go:robloxCodec.Encode"]}
{"id": "C22", "title": "Instances are grouped by class deterministically", "statement": "Encode emits one INST group per distinct class name, sorted by class name, with ids increasing inside a group; the result does not depend on map iteration order.", "quantifier": "all forests and all map iteration orders", "why_tests_cant": "map iteration order is random at run time", "anchors": ["rbxl/codec.go:robloxCodec.Encode", "rbxl/codec.go:sortInstChunks"]}
{"id": "C23", "title": "Binary round-trip of a tree", "statement": "Encoding a root and decoding the result gives an isomorphic forest: same shape and order, class names, service flags (Place mode), property values up to the format's documented collapses, references inside the tree pointing to the corresponding instances, references outside becoming nil.", "quantifier": "all well-formed roots", "why_tests_cant": "all trees, property sets and reference graphs", "anchors": ["rbxl/codec.go:robloxCodec.Encode", "rbxl/codec.go:robloxCodec.Decode"]}
{"id": "C24", "title": "Value conversion round-trips", "statement": "Converting a property value to the binary representation and back gives the same value (string kinds collapse to String), including all special CFrame rotations.", "quantifier": "all values of all convertible types", "why_tests_cant": "all bit patterns; 24 special matrices and signed zeros", "anchors": ["rbxl/codec.go:encodeValue", "rbxl/codec.go:decodeValue", "rbxl/cframe.go:cframeSpecialMatrix"]}
{"id": "C25", "title": "CFrame special table is exact", "statement": "The special-rotation table is exactly the set of axis-aligned rotation matrices generated by the documented rule, is injective, and lookup in both directions agree.", "quantifier": "all 256 ids and all rotation matrices", "why_tests_cant": "complete table and all float keys (signed zero equality)", "anchors": ["rbxl/cframe.go:matrixFromID", "rbxl/cframe.go:cframeSpecialMatrix", "rbxl/cframe.go:cframeSpecialNumber"]}
{"id": "C26", "title": "Shared strings are deduplicated and restored", "statement": "On encode equal shared strings get one entry, indexes are dense and refer to the right value; on decode every index in range yields that value.", "quantifier": "all sets of shared-string properties, all collision-free hashes", "why_tests_cant": "all trees", "anchors": ["rbxl/codec.go:robloxCodec.Encode"]}
{"id": "C27", "title": "Metadata survives and is written deterministically", "statement": "Metadata pairs written to META are exactly the root's metadata and decode back to the same map; output is sorted by key. (The comparator compares a key with a value, so the order is not sorted and depends on map iteration.)", "quantifier": "all metadata maps, all iteration orders", "why_tests_cant": "map iteration order", "anchors": ["rbxl/codec.go:sortMetaData", "rbxl/codec.go:robloxCodec.Encode"]}
{"id": "C28", "title": "Missing properties get the type's default on encode", "statement": "When instances of one class do not all have a property, those without it decode with the type's default value; for references that should be nil. (The code writes reference 0, the first instance.)", "quantifier": "all forests with heterogeneous property sets", "why_tests_cant": "all trees", "anchors": ["rbxl/codec.go:robloxCodec.Encode", "rbxl/values.go:newValue"]}
{"id": "C29", "title": "Decode rejects inconsistent ids", "statement": "Decode returns an error, never a panic, for class ids or instance ids out of bounds, duplicate instance ids, mismatched lengths; accepted models have in-range ids only.", "quantifier": "all models", "why_tests_cant": "adversarial models", "anchors": ["rbxl/codec.go:robloxCodec.Decode"]}
{"id": "C30", "title": "Decoded structure is a forest", "statement": "After decoding, each instance appears at most once as a child or root and there are no cycles. (Not checked by the code; refuted with a witness, holds when the PRNT chunk is acyclic with distinct children.)", "quantifier": "all models", "why_tests_cant": "adversarial models", "anchors": ["rbxl/codec.go:robloxCodec.Decode"]}
{"id": "C31", "title": "Copy is a deep isomorphic copy", "statement": "Copying an instance/root creates fresh instances isomorphic to the original in shape, class, service flag and property values; the original is unchanged apart from assigned Reference strings.", "quantifier": "all instance graphs forming a forest", "why_tests_cant": "all trees and heaps", "anchors": ["file.go:Root.Copy", "file.go:Instance.Copy", "file.go:Instance.copy"]}
{"id": "C32", "title": "Copied references are redirected", "statement": "A reference property to an instance inside the copied tree points to that instance's copy; one to an instance outside still points to the same instance; nil stays nil.", "quantifier": "all forests, all reference graphs, all initial Reference strings (including duplicates and empty)", "why_tests_cant": "all aliasing of Reference strings and traversal orders", "anchors": ["file.go:Instance.copy", "ref.go:References.Get", "ref.go:References.Resolve"]}
{"id": "C33", "title": "Reference strings stay unique", "statement": "After any sequence of reference requests against one table, two different instances never hold the same reference string, no reference is empty, and asking again for an instance gives the same string.", "quantifier": "all sequences of instances, all initial strings, all generator outputs", "why_tests_cant": "all histories, generator collisions", "anchors": ["ref.go:References.Get"]}
{"id": "C34", "title": "Resolve's contract", "statement": "Resolving a property reference sets the property to the referent (or nil) and returns true exactly when the referent exists and the reference is not empty; nothing else changes. ", "quantifier": "all reference tables and requests", "why_tests_cant": "all tables", "anchors": ["ref.go:References.Resolve", "ref.go:IsEmptyReference"]}
{"id": "C35", "title": "Value copies equal the original", "statement": "Copy of any value is equal to the original and shares no mutable storage. (Font copies take CachedFaceId from Family.)", "quantifier": "all values", "why_tests_cant": "all values", "anchors": ["values.go:Copy"]}
{"id": "C36", "title": "Type names are a bijection", "statement": "Type.String and TypeFromString are inverse on valid types, invalid ones map to Invalid, and NewValue(t) has type t.", "quantifier": "all 256 type bytes and all strings", "why_tests_cant": "all strings", "anchors": ["values.go:Type.String", "values.go:TypeFromString", "values.go:NewValue"]}
{"id": "C37", "title": "Generated identifiers are well-formed", "statement": "A generated reference is RBX followed by 32 upper-case hex digits encoding the 16 random bytes with version 4 and RFC 4122 variant bits; distinct random bits give distinct references. UniqueId's string form is injective.", "quantifier": "all 16-byte random values, all UniqueIds", "why_tests_cant": "in-place expansion algorithm must hold for all bytes", "anchors": ["ref.go:generateUUID", "ref.go:GenerateReference", "values.go:ValueUniqueId.String"]}
{"id": "C38", "title": "Error unions", "statement": "Union concatenates the given errors in order, flattening one level and dropping nils, and is nil exactly when nothing remains; it is associative.", "quantifier": "all lists of errors", "why_tests_cant": "all lists", "anchors": ["errors/errors.go:Union", "errors/errors.go:Errors.Append", "errors/errors.go:Errors.Return"]}
{"id": "C39", "title": "Encode reports every skipped property", "statement": "When a property is skipped because of mismatched types, the caller receives a warning. (Encoder.Encode drops the codec's warnings.)", "quantifier": "all roots", "why_tests_cant": "all roots", "anchors": ["rbxl/encoder.go:Encoder.Encode", "rbxl/codec.go:robloxCodec.Encode"]}
{"id": "C40", "title": "UniqueId is only written in places", "statement": "In Model mode no UniqueId property array is ever written; in Place mode it is preserved.", "quantifier": "all roots, both modes", "why_tests_cant": "all roots", "anchors": ["rbxl/codec.go:robloxCodec.Encode"]}
{"id": "C41", "title": "Value bytes follow the documented layout", "statement": "Each value is written with exactly the documented fields, in order, with the documented width, byte order and transformation (big-endian zigzag integers, big-endian floats with the sign bit last, little-endian plain fields), so files are readable by other implementations.", "quantifier": "every value of every binary value type", "why_tests_cant": "An error made consistently in writer and reader passes every round-trip test, and the layout must be right for every value of 31 types.", "anchors": ["rbxl/values.go: Bytes methods"]}
{"id": "C42", "title": "Array bytes follow the documented layout", "statement": "A property array is its type byte followed by: byte i of element j at offset i*count+j for interleaved types (for references the elements are wrapped differences), all rotations then interleaved positions for CFrames, and plain concatenation for every other type.", "quantifier": "every type and every non-empty array of it", "why_tests_cant": "Layout errors made symmetrically in writer and reader are invisible to round-trip tests; must hold for all lengths.", "anchors": ["rbxl/arrays.go: arrayToBytes, typeArrayToBytes, Bytes methods"]}
{"id": "C43", "title": "Decoder statistics describe the decoded file", "statement": "After a successful binary decode the statistics hold the header's class and instance counts, the signature of every chunk in order, and the number of chunks that decoded without error (so not the total number of chunks when some chunk is errored, although the documentation says total). A decode that fails leaves in the statistics exactly the header fields that the input holds in full, the XML flag if the input looks like XML, and the signatures and the count of the chunks before the first one that cannot be read, which are the chunks that decoding the file cut there and ended would give. Decompress counts every chunk, and behaves likewise on failure.", "quantifier": "all byte strings, decoded or rejected", "why_tests_cant": "all files, including files with errored chunks", "anchors": ["rbxl/decoder.go:DecoderStats", "rbxl/decoder.go:Decoder.decodeChunks", "rbxl/decoder.go:Decoder.decompressChunks"]}
{"id": "C44", "title": "Chunk payload bytes follow the documented layout", "statement": "Every chunk payload written is the documented sequence of little-endian counts, length-prefixed strings, ids (interleaved wrapped differences) and raw bytes; the chunk signatures are the documented four characters.", "quantifier": "every well-formed payload of every chunk kind", "why_tests_cant": "a layout error made symmetrically in reader and writer passes every round-trip test; lists are unbounded", "anchors": ["rbxl/model.go: WriteTo methods", "rbxl/chunks.go"]}
{"id": "C45", "title": "A written file is header, frames, trailing bytes", "statement": "Every successful binary encode writes the 32-byte header with the counts and zero reserved bytes, then one frame per chunk in order (signature, compressed length or 0, uncompressed length, zero, body), then the trailing bytes.", "quantifier": "all models, both compression settings, every compressor", "why_tests_cant": "unbounded chunk lists", "anchors": ["rbxl/encoder.go:Encoder.encode", "rbxl/model.go:rawChunk.WriteTo"]}
{"id": "C46", "title": "Font weight and style names are inverse", "statement": "FontWeightFromString/FontStyleFromString accept exactly the strings that the corresponding String methods produce for the defined weights and styles, and the two are inverse.", "quantifier": "all strings, all weights and styles", "why_tests_cant": "Quantifies over all strings and all integer codes.", "anchors": ["values.go FontWeightFromString", "values.go FontWeight.String", "values.go FontStyleFromString", "values.go FontStyle.String"]}
{"id": "C47", "title": "Encoding a tree never panics or hangs", "statement": "Encoding any root to the binary format returns (with or without an error). (False: an optional value without type, two optional types under one name, a nested optional, an instance with two parents, a cycle, or a nil child make it panic or recurse forever.)", "quantifier": "all roots, both modes, all map iteration orders", "why_tests_cant": "all trees and property sets", "anchors": ["rbxl/codec.go:robloxCodec.Encode", "rbxl/codec.go:encodeValue", "rbxl/array.go"]}
{"id": "C48", "title": "The decoded tree is exactly what the chunks say", "statement": "For every file the decoder accepts, the resulting tree has one instance per listed instance id, with the class and service flag of its INST group, for each property name the cell of the last column of that name, references resolved to the instances with those ids listed before the column, shared strings by index into the last preceding table, children and roots in the order of the parent links whose ends are known, and the metadata with the last value of each key.", "quantifier": "every byte string that decodes", "why_tests_cant": "all files, including those no encoder writes (several PRNT/SSTR chunks, repeated columns, links to missing instances)", "anchors": ["rbxl/codec.go:robloxCodec.Decode", "rbxl/decoder.go:Decoder.decode"]}
{"id": "C49", "title": "Encoding to XML is total on trees", "statement": "Encoding any tree (each instance at most once, children non-nil) to XML returns without error, panic or endless recursion, assigns a unique reference to every instance, and changes nothing of the tree but empty or repeated references; conversely the encoder only returns on trees (a cycle is followed forever, a nil root panics).", "quantifier": "all heaps, roots, encoder options, random sources that do not repeat, hash functions", "why_tests_cant": "all trees and options", "anchors": ["rbxlx/format.go:Encoder.Encode", "rbxlx/codec.go:rencoder", "rbxlx/document.go:WriteTo"]}
{"id": "C50", "title": "XML round-trip of trees", "statement": "Decoding the XML that Encode wrote gives a tree of the same shape and order, classes equal up to line ends, references redirected to the images of their targets (nil if outside the tree), shared strings equal, metadata equal up to line ends, and every property equal to what its type keeps (C53); with values that are all kept, equal.", "quantifier": "all storable trees, all encoder options with white-space prefix and indent and a root tag, all readers", "why_tests_cant": "all trees, names, values, layouts", "anchors": ["rbxlx/codec.go", "rbxlx/document.go", "rbxlx/format.go"]}
{"id": "C51", "title": "Decoding XML never panics or hangs", "statement": "Decoding any byte stream, ended by EOF or any reader error, returns a tree or an error. (False: a Font tag with a Weight out of the 16-bit range before Family dereferences nil; this is the only case.)", "quantifier": "every byte string, both settings of DiscardInvalidProperties, every error of the reader", "why_tests_cant": "all byte strings", "anchors": ["rbxlx/codec.go:getValue", "rbxlx/document.go:ReadFrom", "rbxlx/format.go:Decoder.Decode"]}
{"id": "C52", "title": "Text survives XML", "statement": "A string property comes back identical exactly when its carriage returns are all among leading white space; otherwise \\r\\n and \\r become \\n. The second trip changes nothing.", "quantifier": "all byte strings as property values, in all trees", "why_tests_cant": "all strings, including markup and control characters", "anchors": ["rbxlx/document.go:encodeText", "rbxlx/document.go:text", "rbxlx/codec.go:encodeContent"]}
{"id": "C53", "title": "Which values XML keeps", "statement": "For each type, exactly the listed values survive: e.g. floats that are numbers, doubles of at most nine digits, sequences and ranges with six digits, no BrickColor (becomes Int), no Ray direction, tokens below 2^31, fonts with known weight and style, optional CFrames only; and what was read once survives from then on.", "quantifier": "every well-formed value of every type, every strconv meeting its contract", "why_tests_cant": "all bit patterns of all types", "anchors": ["rbxlx/codec.go:encodeProperty", "rbxlx/codec.go:getValue", "rbxlx/codec.go:encodeFloatPrec"]}
{"id": "C54", "title": "XML decodes to the forest the document describes", "statement": "Every decoded tree is a forest with exactly one instance per Item tag that has a class, below instances in document order; class and reference are the attributes, every property comes from a tag of that name in the instance's first Properties tag, references point to instances of the tree.", "quantifier": "every byte string that decodes", "why_tests_cant": "all documents, including malformed and hand-written ones", "anchors": ["rbxlx/codec.go:getItems", "rbxlx/codec.go:getProperty", "rbxlx/codec.go:Decode"]}
{"id": "C55", "title": "DiscardInvalidProperties only removes properties", "statement": "With the option, the result is the same error, panic or tree (instances, order, classes, references, metadata) with a subset of the properties, and a value that is kept is the same. Without it, no property of a known type other than Content and Font is dropped. (The documented effect is false: a component that is not a number is zero in both settings; a Content with text is dropped in both.)", "quantifier": "every byte string", "why_tests_cant": "all documents", "anchors": ["rbxlx/format.go:Decoder", "rbxlx/codec.go:getValue"]}
{"id": "C56", "title": "XML encoding does not depend on map order", "statement": "Encoding the same tree with properties and metadata maps iterated in any order gives the same bytes, warnings and references.", "quantifier": "all trees and all orders of their maps", "why_tests_cant": "all iteration orders", "anchors": ["rbxlx/codec.go:encodeProperties", "rbxlx/codec.go:sortTagsByNameAttr"]}
{"id": "C57", "title": "Only roblox documents of version 4 or more decode to something", "statement": "A decoded tree that is not empty comes from a document whose root tag is named roblox and has a version attribute that is an integer of at least 4. (A lone comment is accepted as an empty tree and what follows it is ignored.)", "quantifier": "every byte string", "why_tests_cant": "all documents", "anchors": ["rbxlx/document.go:decodeTag", "rbxlx/document.go:ReadFrom"]}
{"id": "C58", "title": "Layout options do not change the content", "statement": "Prefix, Indent, NoDefaultIndent and Suffix do not change what the document decodes to.", "quantifier": "all trees, all white-space prefixes and indents, all suffixes", "why_tests_cant": "all layouts", "anchors": ["rbxlx/document.go:WriteTo", "rbxlx/format.go:Encoder"]}
{"id": "C59", "title": "XML decoding warns of every Item without a class", "statement": "The warnings of Decode are those of the parser followed by exactly one per Item tag without a class (outside of such tags), and some for binary content; nothing else.", "quantifier": "every byte string that decodes", "why_tests_cant": "all documents", "anchors": ["rbxlx/codec.go:getItems", "rbxlx/codec.go:getValue"]}
{"id": "C60", "title": "Binary decoding reports every irregularity", "statement": "The warnings of Decode are, in order: reserved header bytes that are not zero, each chunk with an unknown signature, each chunk with an unreadable payload, a compressed END chunk, END content other than </roblox>; then each property chunk without values and each link of a missing child. With an error, those up to the error are returned.", "quantifier": "every byte string", "why_tests_cant": "all files", "anchors": ["rbxl/decoder.go:Decoder.Decode", "rbxl/decoder.go:decodeChunks", "rbxl/codec.go:robloxCodec.Decode"]}
{"id": "C61", "title": "Decode of either format always ends", "statement": "Decoding any bytes with the binary decoder, which hands on the legacy XML format, returns a tree or an error or panics in one of four listed ways; bytes that start with <roblox and not <roblox! are decoded exactly like the XML decoder does, or refused if NoXML is set.", "quantifier": "every byte string, both settings of NoXML", "why_tests_cant": "all byte strings", "anchors": ["rbxl/decoder.go:Decoder.Decode", "rbxlx/format.go:Decoder.Decode"]}
{"id": "C62", "title": "JSON keeps every instance without children", "statement": "Encode and then Decode of a root whose instances have no children gives the same instances in the same order: class, IsService, reference string, every property with its value, references among them redirected; except that the last one or two bytes of binary and shared strings, unique ids and fonts are lost, and metadata.", "quantifier": "all heaps of storable instances (UTF-8 text, finite numbers, 64-bit integers below 2^53), all random sources that do not repeat, all map iteration orders", "why_tests_cant": "all value types, reference graphs and map orders", "anchors": ["json/json.go:Encode", "json/json.go:Decode", "json/json.go:ValueToJSONInterface", "json/json.go:ValueFromJSONInterface"]}
{"id": "C63", "title": "JSON keeps children (refuted)", "statement": "A tree in which some instance has a child is written without an error, but Decode of what was written panics; so does an optional value.", "quantifier": "all forests of storable instances with at least one child", "why_tests_cant": "all trees", "anchors": ["json/json.go:InstanceFromJSONInterface", "json/json.go:ValueToJSONInterface"]}
{"id": "C64", "title": "JSON Encode fails exactly on numbers that are not finite", "statement": "Encode of a forest whose references are nil or instances never panics, and returns an error exactly when a property anywhere in the forest, also inside an optional value, holds an infinity or NaN.", "quantifier": "all forests, all values, all map orders", "why_tests_cant": "all values in all positions", "anchors": ["json/json.go:Encode", "json/json.go:RootToJSONInterface"]}
{"id": "C65", "title": "Which JSON documents make Decode panic", "statement": "Decode always ends. It panics exactly when the version truncates to 0 and some instance has a property whose value lacks a needed member (per type), or has an instance as a child; it refuses exactly documents without such a version or without an array of instances; values of another JSON kind are ignored.", "quantifier": "every JSON document", "why_tests_cant": "all documents", "anchors": ["json/json.go:RootFromJSONInterface", "json/json.go:InstanceFromJSONInterface", "json/json.go:ValueFromJSONInterface"]}
{"id": "C66", "title": "JSON Decode does not depend on map iteration order", "statement": "Two runs of Decode on one document give the same roots and instances that differ at most in the listing order of their property maps, or both panic, or both refuse, also when several instances have one reference.", "quantifier": "every document, every two map iteration orders", "why_tests_cant": "schedules of map iteration", "anchors": ["json/json.go:InstanceFromJSONInterface", "json/json.go:RootFromJSONInterface"]}
{"id": "C67", "title": "A declaration makes exactly the tree it describes", "statement": "Declare of a Root or Instance declaration in which no property is of the panicking kind creates one new instance per declared instance, in the declared shape, with its class and label, each property having the value of the last declaration with its name and no others; a Reference names the last instance in depth-first order with that label, wherever it stands in the tree, or nil; earlier instances are untouched; a metadata key keeps its last value; the order of Go's maps makes no difference.", "quantifier": "all declarations of any depth, all existing instances, all map orders", "why_tests_cant": "all trees and all map iteration orders", "anchors": ["declare/declare.go:build", "declare/declare.go:Root.Declare", "declare/declare.go:instance.Declare", "declare/declare.go:Instance"]}
{"id": "C68", "title": "Property values are as documented, with exact exceptions", "statement": "For each documented form of values of each declared type, the property gets the documented value, except: text given to BinaryString, ProtectedString and Content makes a ValueString; a number given to Double makes a ValueFloat; a CFrame of ten values has its rotation shifted by one; keypoints given as groups of numbers are all dropped; a Rect of two Vector2s has its minimum as maximum. Every documented declaration is of one of these two kinds.", "quantifier": "all types, all values of all documented forms", "why_tests_cant": "all values; exceptions are exactly characterised", "anchors": ["declare/declare.go:Property", "declare/type.go:Type.value"]}
{"id": "C69", "title": "Which declarations panic, and the type of every value", "statement": "Declaring panics exactly when some property is a ColorSequence declared with a single value that is not a ColorSequence. Every other declaration gives a value of the declared type (but for the four exceptions of C68); the wrong number of values or a first value of the wrong kind gives the zero value.", "quantifier": "all types, all lists of values, all trees", "why_tests_cant": "all inputs", "anchors": ["declare/type.go:Type.value", "declare/type.go:assertValue"]}
{"id": "C70", "title": "Numbers of any Go type are converted by value", "statement": "A number of any integer or float type given to a Float becomes the nearest float32, ties to even, exactly the same value when there is one, infinities and NaN kept; given to an integer type, integers wrap around and floats lose their fraction when the result fits.", "quantifier": "all numbers of twelve Go types", "why_tests_cant": "all 2^64 bit patterns", "anchors": ["declare/type.go:normFloat32", "declare/type.go:normInt32", "declare/type.go:normUint32", "declare/type.go:normInt64"]}
{"id": "C71", "title": "Names of declared types", "statement": "TypeFromString gives, in any map order, the type whose name the text is up to case (the Kelvin sign counts as K, the dotted capital I as I) and otherwise the invalid type; String gives the same names as rbxfile's types and is inverted by TypeFromString.", "quantifier": "all strings, all map orders", "why_tests_cant": "all strings", "anchors": ["declare/type.go:TypeFromString", "declare/type.go:Type.String"]}
{"id": "C72", "title": "The XML reader accepts exactly one language", "statement": "ReadFrom (hence Decode of the XML format) succeeds exactly on the texts of a stated grammar (white space, names, references, CDATA, comments, start and end tags, dropped tags, root tag and version), returns exactly the document the grammar gives, with the warnings and their lines, whatever error the reader ends with, and returns an error on every other text. Ordinary XML is not always in it: empty tags without a space, an XML declaration, single quotes, a lone ampersand; and indentation is never detected without a CDATA section.", "quantifier": "all byte strings, all reader errors at the end", "why_tests_cant": "all texts, unbounded nesting", "anchors": ["rbxlx/document.go:documentRoot.ReadFrom", "rbxlx/document.go:decoder.decodeTag", "rbxlx/document.go:decoder.decodeStartTag", "rbxlx/document.go:decoder.text", "rbxlx/document.go:decoder.decodeCData"]}
{"id": "C73", "title": "Lines in the errors and warnings of the XML reader", "statement": "When reading XML fails, the error is the reader's own, or a syntax error naming a line of the input, or an unclosed tag naming the line on which some tag was closed by '>'; every warning is a syntax error naming a line of the input. io.EOF is returned only where the input stops before the first tag or right after a start tag. That errors of the underlying reader were always reported is false: between the tags they are reported as an unclosed tag.", "quantifier": "all byte strings, all reader errors at the end", "why_tests_cant": "all texts and all error positions", "anchors": ["rbxlx/document.go:decoder.syntaxError", "rbxlx/document.go:decoder.ungetc", "rbxlx/document.go:decoder.mustgetc", "rbxlx/document.go:documentRoot.ReadFrom"]}
{"id": "C74", "title": "The exact text of the XML encoder", "statement": "The writer's output for a document whose tags have names is exactly the text given by a layout specification (escapes, attributes, end names, CDATA, comments, line breaks and depth, root excluded or not), with exactly the stated warnings. Encode never warns, writes the codec's tags in the encoder's layout (a tab by default, none with NoDefaultIndent), and between prefix and suffix writes only printable ASCII, line ends and the indentation, unless a protected string contains ']]>'. A tag of Encode's document with tags in it has them on lines of their own unless it is a content.", "quantifier": "all documents, all trees, encoders with any prefix, indent and suffix", "why_tests_cant": "all documents, unbounded depth", "anchors": ["rbxlx/document.go:encoder.encodeTag", "rbxlx/document.go:encoder.escapeString", "rbxlx/document.go:encoder.writeIndent", "rbxlx/document.go:documentRoot.WriteTo", "rbxlx/format.go:Encoder.Encode"]}
{"id": "C75", "title": "Values read from the property tags of an XML file", "statement": "With DiscardInvalidProperties a property of an XML file has a value exactly when its tag is a valid text of the type, and then it has the value the tag stands for: strings are the CDATA section or else the text; numbers are decimal with an optional sign, and one out of range is the nearest in range; tags with components take the first subtag of each name whatever their order, ignore other subtags, and need them all; packed colors are 0x00RRGGBB, each channel k becoming the float nearest to k/255 (0 and 1 at the ends), from which k can be had back; sequences are floats each followed by white space; a UniqueId is 32 hexadecimal digits. Without the option the same values are read, and a tag that is not valid is the zero value of the type. (An integer component out of range stops the search for components: those not yet seen are zero.)", "quantifier": "every tag (any text, CDATA, subtags, nesting), every property type, every behaviour of strconv.ParseFloat", "why_tests_cant": "The texts, orders and numbers of subtags are unbounded; tests pick a few.", "anchors": ["rbxlx/codec.go: getValue", "rbxlx/codec.go: components.getFrom", "rbxlx/codec.go: getContent", "rbxlx/codec.go: scanFloat"]}
{"id": "C76", "title": "The contents of a decoded XML document", "statement": "A successful Decode of an XML file gives the document exactly. The instances are the Item tags with a class, in document order; each has the class and referent of its attributes, its Items as children, and exactly these properties, from the first Properties tag in it: for each name, the last tag with that name that refers to an instance gives a reference to the last instance with that referent (none if there is none); without such a tag the shared string defined last under a key that a tag with the name asks for; without that, the last other value, where the tag says the type by name without regard to case and the value is what C75 says. Tags of unknown type, without a name or without a valid value are left out. Optional types give an optional value. Metadata is the text of the last Meta tag of each name.", "quantifier": "every input and reader error, strict and lax, every behaviour of strconv.ParseFloat", "why_tests_cant": "Trees, names, repetitions and references are unbounded and interact: a test fixes one document.", "anchors": ["rbxlx/codec.go: robloxCodec.Decode", "rbxlx/codec.go: rdecoder.decode", "rbxlx/codec.go: getItems", "rbxlx/codec.go: getProperty", "rbxlx/codec.go: GetCanonType", "ref.go: Resolve"]}
{"id": "C77", "title": "Binary encoding to a writer that fails", "statement": "rbxl.Encoder.Encode and Decoder.Decompress, given any writer that keeps the io.Writer contract: a nil error returned means the writer received exactly the file; if a Write fails, it is the last one made, what was received is a beginning of the file, and the error returned is a DataError whose cause is the writer's error; if a chunk cannot be encoded, the chunks before it are delivered whole and of the bad one at most its signature; a tree the codec refuses is refused before anything is written; Encode with a nil writer is an error.", "quantifier": "all models, trees and files; all writers as functions of all past calls (any short count, any error, at any call)", "why_tests_cant": "failure points and writer behaviours are unbounded; a test tries a few", "anchors": ["rbxl/encoder.go: Encoder.Encode, encode, encodeError", "rbxl/model.go: rawChunk.WriteTo", "rbxl/decoder.go: Decoder.Decompress"]}
{"id": "C78", "title": "XML encoding to a writer that fails", "statement": "rbxlx.Encoder.Encode, given any writer that keeps the io.Writer contract: a nil error returned means the writer received exactly the text of the document, however it was buffered; if a Write fails, it is the last one made, what was received is a beginning of the text, and Encode returns that error, with the warnings given so far. No failure is lost, including those of the indentation, whose errors the encoder does not look at.", "quantifier": "all trees, options and documents; all writers as functions of all past calls (any short count, any error, at any call)", "why_tests_cant": "failure points, buffer boundaries and writer behaviours are unbounded", "anchors": ["rbxlx/document.go: encoder.encodeTag, writeIndent, escapeString, flush, documentRoot.WriteTo", "rbxlx/format.go: Encoder.Encode"]}
{"id": "C79", "title": "Binary decoding from readers that give pieces and fail", "statement": "Decoding or decompressing a binary file from any io.Reader depends only on the bytes the reader gives in total and on the error it ends with: the sizes of the pieces its Read calls return, and whether the last piece comes together with the error, change neither the model, the error and its Offset, the warnings nor the statistics. Where the bytes end in an error other than io.EOF, that error is returned (never a model, never io.EOF or io.ErrUnexpectedEOF), with the warnings and statistics gathered so far, and with the number of bytes read as Offset; an error the decoder found in the bytes before comes first. Input that is found to be XML is handed on: the eight bytes consumed and the rest of the reader are together the input.", "quantifier": "all byte strings, all partitions into pieces (empty ones included), all final errors, all compressors and options", "why_tests_cant": "the partitions and failure points of an input are unbounded, and each combines with every malformed input", "anchors": ["rbxl/decoder.go: Decoder.decode, decodeChunks, decompressChunks", "rbxl/model.go: rawChunk.Decode"]}
{"id": "C80", "title": "What a JSON value stands for", "statement": "Whenever ValueFromJSONInterface returns a value for a type, it is the value the JSON stands for: text as it is, binary strings decoded from base64 or else as they are, numbers rounded to the nearest float32 or, where the integer type of the field can hold them, without their fraction; objects by their named members; a CFrame takes at most nine numbers, and those not given are zero; a keypoint that is not an object is zero; an optional takes the type named in it if there is no value, and else the type of the value read; a reference is its text.", "quantifier": "all JSON values of any depth, all types, all numbers", "why_tests_cant": "the JSON values and numbers are unbounded; documents written by others are not limited to what the encoder writes", "anchors": ["json/json.go: ValueFromJSONInterface"]}
{"id": "C81", "title": "What a JSON document describes", "statement": "Reading a JSON document in which no reference is given twice: the root lists, in order, one instance for every entry with a class name, all different; each has the class and reference of its entry, is a service exactly if is_service is true, has no children, and has exactly the properties that the entry describes with values of the right kind; a reference property refers to the one instance that has this reference, and is nil if there is none; other properties are ignored. Two entries with the same reference become one instance that the root lists twice.", "quantifier": "all documents of any size, all iteration orders of maps", "why_tests_cant": "documents are unbounded and the order in which Go ranges over maps is not determined", "anchors": ["json/json.go: RootFromJSONInterface, InstanceFromJSONInterface"]}
{"id": "C82", "title": "When there is a dump", "statement": "Decoder.Dump writes a text for every binary file that can be read, with the warnings of reading it, unless an optional column of properties contains another optional column in which a cell is missing: then it panics (also for files that Decode accepts). Its errors are those of Decode with the same warnings, and ErrXML for the legacy XML format.", "quantifier": "all byte strings, all compressors, all chunks left behind by chunk errors", "why_tests_cant": "files are unbounded; the panic needs a type nesting no editor writes", "anchors": ["rbxl/dump.go: Decoder.Dump, dumpChunk", "rbxl/arrays.go: arrayOptional.Dump, arrayOptional.Get"]}
{"id": "C83", "title": "Bytes in a dump", "statement": "Bytes are dumped as their number and rows of sixteen in hexadecimal and text, with a gap after the eighth, rows padded unless there is only one short row; the bytes, and where they end, can be read back from the text whatever follows.", "quantifier": "all byte strings, indentations and following texts", "why_tests_cant": "unbounded lengths, all positions of the cut", "anchors": ["rbxl/dump.go: dumpBytes"]}
{"id": "C84", "title": "Strings in a dump", "statement": "Strings are dumped in a form from which the string and its end can be read back, whatever follows, whether it is shown quoted or as bytes; quoted text is on one line; plain printable text is shown as it is; text with a control character that is not graphic is shown as bytes.", "quantifier": "all byte strings (also invalid UTF-8), all tables of printable and graphic characters", "why_tests_cant": "all strings, all ways of splitting UTF-8", "anchors": ["rbxl/dump.go: dumpString"]}
{"id": "C85", "title": "A dump shows the whole file", "statement": "Two files without errored chunks and without optional columns inside optional columns that have the same dump have the same version and counts and the same chunks in the same order with the same compression flags, contents and property values, up to what the format does not store and the payload of NaNs. Inside nested optional columns the type of the values is not shown.", "quantifier": "all pairs of readable files, all compressors, any text of floating point numbers that shows every number but NaNs exactly", "why_tests_cant": "ranges over pairs of unbounded files", "anchors": ["rbxl/dump.go: Decoder.Dump, dumpChunk", "rbxl/values.go: Dump methods"]}
{"id": "C86", "title": "Labels in a dump", "statement": "In the dump of a value every line shows the field that its label names, for all types but two: a UDim2 shows the X offset as Y.Scale and the Y scale as X.Offset, and the position of a quaternion CFrame has no line of its own. The text is not always UTF-8: signatures of unknown chunks are written byte by byte.", "quantifier": "all values of all types, all indentations", "why_tests_cant": "all values of all types; existing tests do not look at dumps", "anchors": ["rbxl/values.go: Dump methods", "rbxl/dump.go: dumpSig"]}
{"id": "C87", "title": "The layout of a value's text", "statement": "String of a value is the template of its type with the texts of its components in order: UDim2 as {xs, xo}, {ys, yo}; CFrame as position then the nine rotation numbers; Faces and Axes as the names that are set, in a fixed order, separated by commas; keypoints of sequences each followed by a space; a Font with family, weight name and style name; an optional as its value or nil; a reference as the instance's Reference or <nil>. Integers are decimal without leading zeros.", "quantifier": "all values of all types, any lengths, any texts of floating point numbers", "why_tests_cant": "all values of all types", "anchors": ["values.go: String methods, joinstr"]}
{"id": "C88", "title": "What a value's text tells", "statement": "Two values of the same type, neither references nor optionals, have the same String exactly if they are equal up to the payload and sign of NaNs, font weights and styles without a name, the cached face of a font and the numbers of physical properties that are not custom. Negative zero, infinities and every bit of other numbers are seen. Not told: whether an optional is none or holds the string nil, and which of several instances with one reference string is meant.", "quantifier": "all pairs of values of one type", "why_tests_cant": "ranges over pairs of unbounded values", "anchors": ["values.go: String methods"]}
{"id": "C89", "title": "The statistics count the tree", "statement": "For every tree of instances, rbxfile-stat ends and every number it gives is the number it stands for: instances, properties, instances of each class, properties of each type, optionals of each inner type, and properties of each class, name, type and length; each table has one entry for each key that occurs and no other, and the tables add up to the counts. The order in which Go reads the property maps does not matter.", "quantifier": "all instance trees, property maps and map orders in each of the five walks", "why_tests_cant": "ranges over unbounded trees and all map orders", "anchors": ["cmd/rbxfile-stat/main.go: walk, Stats.Fill"]}
{"id": "C90", "title": "The largest properties", "statement": "LargestProperties of rbxfile-stat lists at most 20 combinations of class, property, type and length that occur in the tree, each once, longest first; all of them if there are fewer than 20, and nothing left out is longer than anything listed.", "quantifier": "all trees, map orders and (unstable) sorts", "why_tests_cant": "ranges over unbounded trees and all orders of equal entries", "anchors": ["cmd/rbxfile-stat/main.go: PropLenCount.MarshalJSON"]}
{"id": "C91", "title": "Which files have statistics", "statement": "rbxfile-stat ends on every XML file and on every binary file in which each instance has one parent link and none is above itself. Expected also: on every file that decodes without error. Refuted: a binary file with a cycle of parents decodes without error and overflows the stack.", "quantifier": "all inputs, map orders and stack depths", "why_tests_cant": "ranges over all files; the refutation over all stack depths", "anchors": ["cmd/rbxfile-stat/main.go: walk, Stats.Fill", "rbxl/codec.go: Decode"]}
{"id": "C92", "title": "Errors the commands print", "statement": "rbxfile-stat, rbxfile-dump and rbxfile-dcomp print something to stderr exactly if decoding gave a warning or an error, and a warning is printed. Expected also: an error is printed. Refuted: the error line wraps the warning instead, so it is the same for every error, and the nil error if there is no warning.", "quantifier": "all warnings and errors", "why_tests_cant": "ranges over all errors", "anchors": ["cmd/rbxfile-stat/main.go: main", "cmd/rbxfile-dump/main.go: main", "cmd/rbxfile-dcomp/main.go: main"]}
{"id": "C93", "title": "Layout of a dump", "statement": "The dump of a binary file that can be read is exactly the listing of the file: the version and counts of the header, then each chunk in order with its number, its signature as text and bytes, whether it is compressed, and its contents line by line: metadata pairs, shared strings, ids with service markers, columns with their count, type and numbered values, parent links, end content, bytes of unknown chunks, and of errored chunks the offset, the error, the part that was read and all bytes. A column names the class its id stands for: the last one declared before it.", "quantifier": "all inputs that decode as binary files without optionals of optionals (in errored chunks: as far as they were read)", "why_tests_cant": "ranges over all files", "anchors": ["rbxl/dump.go: Dump, dumpChunk, dumpSig", "rbxl/arrays.go: arrayOptional.Dump", "rbxl/model.go: Decode methods, chunkErrored"]}
{"id": "C94", "title": "Which files can be dumped", "statement": "Dumping a binary file that can be read panics if and only if some column, as far as it was read, is an optional of an optional with a missing inner cell; this includes columns of chunks that could not be read completely and that decoding only warns about. In all other cases a text is written, and the warnings of decoding are returned.", "quantifier": "all inputs that decode as binary files", "why_tests_cant": "ranges over all files, including those with chunks that break off at any point", "anchors": ["rbxl/dump.go: Dump, dumpChunk", "rbxl/arrays.go: arrayOptional.FromBytes, arrayOptional.Dump, arrayOptional.Get, typeArrayFromBytes", "rbxl/decoder.go: decodeChunks"]}
{"id": "C95", "title": "Chunks that break off", "statement": "A chunk whose content cannot be read is kept with the error of reading it and the offset of the error, and what is kept (and dumped) of its contents is a beginning of every chunk that its bytes could have been completed to: fields in the order of the file up to the failure and zero after it, lists with their first entries (the entry at the failure possibly in part) and empty ones, and columns whose values are stored one after another with their first values and zeros, optionals included. A column whose bytes are interleaved has the values of the longest column that its bytes give, and zeros. A column of CFrames has the rotations of its first values and zeros, or all rotations and the positions that the bytes there give with zero bytes for the missing ones.", "quantifier": "all files that decode, all their errored chunks, and all completions of the content of the chunk that can be read", "why_tests_cant": "ranges over every chunk, every point at which it can break off, and every completion", "anchors": ["rbxl/decoder.go: decodeChunks", "rbxl/model.go: Decode methods, chunkErrored", "rbxl/arrays.go: arrayFromBytes, typeArrayFromBytes, arrayOptional.FromBytes"]}
{"id": "C96", "title": "Declared values of which some are of the wrong kind", "statement": "A property declared with as many values as its type takes, of which some are of another kind than the type asks for, does not become the zero value as the documentation says: each value counts on its own, and one that is not a number, boolean, UDim, Vector3, Vector2 or keypoint where one is needed counts as zero or false. Together with the documented declarations, the wrong ones of C68 and the zero values of C69 this is every declaration whose numbers fit their fields: no other outcome exists.", "quantifier": "all types, all lists of values of any kind, alone and in a tree", "why_tests_cant": "ranges over all combinations of 11 kinds of values in up to 12 places for 30 types, and all numbers", "anchors": ["declare/type.go: Type.value, normFloat32, normFloat64, normInt16, normInt32, normUint8, normBool, assertValue"]}
{"id": "C97", "title": "CFrames stored as quaternions", "statement": "A CFrame that a binary file stores as a quaternion q (finite components of magnitude at most one) is decoded as the stored position and a matrix of nine finite floats each of which is within 2^-19 + |1 - |q|^2| of the entry of the matrix of the rotation v -> q v q*, row by row, however the compiler fuses the floating point operations; it is exactly that matrix if the components are multiples of 2^-11 and |q| = 1. If the value has a rotation number, the rotation is that of the table.", "quantifier": "all files that decode, all instances and columns, all quaternions of float32 components, all fusings of the operations", "why_tests_cant": "2^128 quaternions and rounding of each operation; the Go specification lets each compiler fuse operations differently", "anchors": ["rbxl/values.go: valueCFrameQuat.ToCFrame", "rbxl/codec.go: decodeValue"]}
{"id": "C98", "title": "Base64 contents mean what RFC 4648 says", "statement": "A BinaryString or SharedString text is accepted exactly if, line ends aside, it is base64 digits and padding to a multiple of four, and the value is the whole bytes of the digits' bits; this does not depend on how many characters each Read gets. What the encoders write, in lines, is read back by every reader. Reading never hangs. Only when a text has padding before other characters and is longer than the first buffer (680 bytes) can more be accepted: then it is base64 texts one after another.", "quantifier": "all texts, all byte strings, all sequences of buffer sizes", "why_tests_cant": "all texts and buffer sizes; boundaries between the decoder's buffers fall anywhere in the text", "anchors": ["rbxlx/codec.go:rdecoder.getValue", "rbxlx/codec.go:rdecoder.decode", "json/json.go:ValueFromJSONInterface"]}
{"id": "C99", "title": "Saving a loaded file again", "statement": "Loading a binary file that the encoder wrote, and saving what was loaded, with the same mode and options, writes the same file byte for byte, whatever order maps are ranged over, and however often this is repeated. With other options it writes what the original tree would have been written as. The second encoding does not warn about any property. Only metadata is an exception: with two or more entries the META chunk may hold them in another order, and nothing else changes.", "quantifier": "all forests that can be stored, both modes, all options, all orders of map iteration of either encoding, any number of repetitions", "why_tests_cant": "ranges over all trees, values, defaults filled in, orders of Go maps and numbers of repetitions", "anchors": ["rbxl/codec.go: robloxCodec.Encode, robloxCodec.Decode", "rbxl/encoder.go: Encoder.Encode", "rbxl/decoder.go: Decoder.Decode"]}
{"id": "C100", "title": "Saving a loaded XML file again", "statement": "Loading an XML file that the encoder wrote, and saving what was loaded with the same options, writes the same text and the same warnings, whatever the random source of new references gives, and however often this is repeated; saving changes nothing of the loaded tree. Saving it with other options that write referents writes what the original tree would be written as. Values need not come back as they were for this: brick colors, rays, NaNs and numbers with more digits than are written come back as others that have the same text. The tree's references point into it, tokens and brick colors fit 31 bits, fonts have a style with a name and a weight below 2^15, carriage returns are only in white space at the start of strings, and referents are written. For other trees the text may change once: from the second save on it stays the same.", "quantifier": "all forests with such values, all option sets that write referents, all indents, all random sources, any number of repetitions", "why_tests_cant": "ranges over all trees, floats, random sources and numbers of repetitions", "anchors": ["rbxlx/codec.go: robloxCodec.Encode, robloxCodec.Decode", "rbxlx/format.go: Encoder.Encode, Decoder.Decode", "references.go: References.Get"]}
{"id": "C101", "title": "Converting between the formats", "statement": "A tree that is saved in one format, loaded, saved in the other format and loaded again, with any options that write referents, is the tree that the binary format alone gives (C23): the same classes, the same children in the same order, every property that the binary format writes with its value, references to the same instances, shared strings, and the metadata; no step fails or warns. This holds in either order. Services are lost, as XML does not store them. Values must be ones that XML keeps (C53); names of classes, properties and metadata have no carriage returns; and if the binary format comes first, binary strings must have none after the white space at their start, as they become strings.", "quantifier": "all forests with such values, both orders, places and models, compressed and uncompressed, all indents and XML options that write referents, all map orders and random sources", "why_tests_cant": "ranges over all trees, values, options, map orders and random sources, and over both formats at once", "anchors": ["rbxl/codec.go: robloxCodec.Encode, robloxCodec.Decode", "rbxl/format.go: Encoder.Encode, Decoder.Decode", "rbxlx/codec.go: robloxCodec.Encode, robloxCodec.Decode", "rbxlx/format.go: Encoder.Encode, Decoder.Decode"]}
{"id": "C102", "title": "A tree is written the same way wherever it is", "statement": "What rbxl.Encoder.Encode writes is a function of the tree alone: two roots that hold the same tree (same classes, service flags, children in the same order, properties with the same names and values, references to corresponding instances) in different instances, built in different ways, with other reference strings and other iteration orders of the property, class and name maps, give the same bytes, the same errors, and the same codec warnings up to order. In particular a copy made by Root.Copy is written exactly as the original is (without metadata, which Copy drops), provided no font has a cached face other than its family; with such a font the file changes. With two or more metadata entries the order of map iteration can show.", "quantifier": "all pairs of heaps and roots that hold the same forest; all iteration orders; all modes and compressors; any random source for the copy", "why_tests_cant": "map iteration order and object identity vary from run to run, and a test sees a few trees", "anchors": ["rbxl/codec.go: robloxCodec.Encode", "rbxl/encoder.go: Encoder.Encode", "file.go: Root.Copy, Instance.copy", "values.go: ValueFont.Copy"]}
{"id": "C103", "title": "The files rbxfile-dcomp and rbxfile-dump read and write", "statement": "rbxfile-dcomp and rbxfile-dump take [INPUT] [OUTPUT]: the result of INPUT (stdin for - or nothing) is left in OUTPUT (stdout for - or nothing), whatever OUTPUT held, and no other path and no other file changes, provided that OUTPUT is not the same file as INPUT under any name. A file left by rbxfile-dcomp decodes to the model of INPUT without compression, and the command makes the same file of it. If a flag is given, or INPUT cannot be opened or OUTPUT cannot be created, nothing is touched and something is printed to stderr; the exit status is 2 only for a bad flag (0 for --help). If OUTPUT is INPUT, or a link to it, the file is empty afterwards, with status 0. The status is 0 and OUTPUT is emptied also if INPUT cannot be decoded.", "quantifier": "every command line, every file system with links, every content of every file, every refusal to open or create", "why_tests_cant": "The claim that nothing else changes ranges over all paths and all file systems, and the result over all inputs; a test runs a command on the files it made.", "anchors": ["cmd/rbxfile-dcomp/main.go:main", "cmd/rbxfile-dump/main.go:main", "cmd/rbxfile-stat/main.go:main", "rbxl/decoder.go:Decompress", "rbxl/dump.go:Dump"]}
{"id": "C104", "title": "A binary file that is converted to XML and back is the same file", "statement": "Save a tree in the binary format, load it, save it as XML with referents and metadata, load it, and save it in the binary format with the same mode: the last file is byte for byte the first. More generally, loading what was saved as XML gives a tree that the binary encoder writes with the same bytes and warnings, or rejects with the same error, as the tree itself. Both hold if values and names are ones that the XML format keeps (C53), there is at most one metadata entry and no instance is a service (place files); a service makes the files differ, because the XML format does not hold IsService.", "quantifier": "every such forest, every order in which Go ranges over maps in each encoding, every generated referent, every indentation and prefix of blanks, every number formatter and parser that satisfy strconv's documentation, discarding invalid properties or not", "why_tests_cant": "Equality of the two files ranges over all trees, map orders and generated referents; a test converts a few files.", "anchors": ["rbxl/encoder.go:Encode", "rbxl/decoder.go:Decode", "rbxl/codec.go:Encode", "rbxl/codec.go:Decode", "rbxlx/codec.go:Encode", "rbxlx/codec.go:Decode"]}
{"id": "C105", "title": "The texts of errors and warnings name the place and cannot be forged by a file", "statement": "Formatting an error never fails when no cause was left out, and its text ends with the text of everything it wraps. For a binary file, whatever its bytes, every error and every warning that Decode returns can be formatted, and its text is a single line without control characters; the warnings formatted as one error are a heading and exactly one line for each warning, in order. When the tree cannot be made from the chunks, the text starts with the number of the chunk in the file and its signature, and the number can be read back. The codec's warnings of encoding are single lines when class and property names have no control characters, and not otherwise; a ChunkError or ValueError made without a cause panics when formatted.", "quantifier": "all error values; all byte strings with the binary marker; all models of a file; all warnings; all tables of printable characters", "why_tests_cant": "The text is made from numbers, signatures and causes of an arbitrary file; a test formats the few errors it thinks of.", "anchors": ["rbxl/errors.go: ChunkError, DataError, CodecError, XMLError, ValueError", "rbxl/arrays.go: indexError", "rbxl/codec.go: chunkError, chunkWarn, errBounds", "rbxl/model.go: sig.String", "rbxl/decoder.go: Decode, decodeError", "errors/errors.go: Errors.Error"]}
