{"id": "C01", "title": "CR normalising reader loses nothing and adds only newlines after lone CRs", "statement": "For every byte stream and every sequence of Read buffer sizes, the concatenation of what replacecr.Reader delivers is the source stream with a '\\n' inserted after some lone '\\r' bytes and nothing else changed, lost or reordered; a lone '\\r' is left without its '\\n' exactly when it lands in the last slot of the caller's buffer. Hence the output is the fully normalised stream whenever no lone CR lands in a last slot, sources without lone CRs are passed through unchanged, and the result does depend on the read sizes in general.", "quantifier": "all byte streams, all finite sequences of Read sizes (including 0 and 1)", "why_tests_cant": "The defect sits at an alignment of stream position and buffer size; there are unboundedly many alignments.", "anchors": ["dsio/replacecr/replace_cr.go: Reader, ReaderWithSize, crlfReplaceReader.Read"]}
{"id": "C02", "title": "TrackedReader counts every byte it hands out", "statement": "After any sequence of Read calls on any source (including short reads and errors) BytesRead equals the total number of bytes delivered to callers, and the bytes, counts and errors delivered are exactly those of the wrapped reader.", "quantifier": "all sources, all sequences of read calls", "why_tests_cant": "The count must agree over every history of short reads and errors.", "anchors": ["dsio/tracked_reader.go: TrackedReader.Read, BytesRead"]}
{"id": "C03", "title": "PagedReader yields exactly the requested window", "statement": "Reading a PagedReader with offset o and limit l to its end yields exactly entries o..o+l-1 of the wrapped reader, in order, and then EOF; a negative limit means no limit; an error of the wrapped reader inside the skipped prefix or the window is passed on at its position; entries beyond the window are never read from the wrapped reader.", "quantifier": "all underlying entry sequences (with an error at any position), all integer offsets and limits", "why_tests_cant": "Off-by-one behaviour over every offset/limit/length combination.", "anchors": ["dsio/streams.go: PagedReader.ReadEntry"]}
{"id": "C04", "title": "Copy moves every entry in order and stops at the first error", "statement": "Copy writes to the writer exactly the entries read before the first read error or rejected write, in order; it returns nil iff the reader reached EOF with every write accepted.", "quantifier": "all readers (entry sequences ending in EOF or any error) and all writers that may reject any entry", "why_tests_cant": "Every failure position matters.", "anchors": ["dsio/streams.go: Copy"]}
{"id": "C05", "title": "ReadAll returns every entry", "statement": "ReadAll on an array reader returns all values in order; on an object reader it returns a map in which every key is bound to its last value; any non-EOF error discards everything and is reported with its one-based position.", "quantifier": "all readers", "why_tests_cant": "Quantifies over all entry sequences and error positions.", "anchors": ["dsio/dsio.go: ReadAll, ReadAllArray, ReadAllObject, GetTopLevelType"]}
{"id": "C06", "title": "EachEntry visits entries once, in order, with consecutive indexes", "statement": "EachEntry calls the callback on each entry in order with index 0,1,2,..., stops at the first callback error or read error, treats EOF from either as success, and never calls the callback after that.", "quantifier": "all readers and all (stateful) callbacks", "why_tests_cant": "All histories of callbacks.", "anchors": ["dsio/entry.go: EachEntry"]}
{"id": "C07", "title": "ConvertFile reports success only with the whole selection? It does not", "statement": "ConvertFile returns the encoding of the selected window when source and target accept every entry; but an error while reading the source or encoding an entry in the middle is dropped: the call returns a nil error together with the encoding of the entries before the failure.", "quantifier": "all sources, windows and failure positions", "why_tests_cant": "Failure at every position.", "anchors": ["dsio/dsio.go: ConvertFile"]}
{"id": "C08", "title": "JSON reading does not depend on how bytes arrive, except after a misspelled literal", "statement": "For every document in which no word outside strings starts like null, true or false without being it (or being cut off by the end), JSONReader returns the same entries and the same final error for every buffer size, every way the bytes are split over Read calls and every error the source ends with; the only other outcome is a panic, possible only when the document ends in a backslash and one more character. For misspelled words the claim is false: '[[nul,1]]' after eleven spaces is an error with a 4096 byte buffer and reads cleanly as [] and 1 with a 16 byte buffer.", "quantifier": "all byte documents, all buffer sizes, all chunkings and final source errors, array and object mode", "why_tests_cant": "Requires all chunkings at all buffer boundaries.", "anchors": ["dsio/json.go: JSONReader.ReadEntry, currentBuffer, extendBuffer, readLiteralToken, readString, readNumber, extractFromBuffer, extractBytesFromBuffer"]}
{"id": "C09", "title": "JSON array write/read round trip", "statement": "Every sequence of values that Marshal accepts, written with the array writer (compact or pretty) and read back, gives the same number of entries in order with index 0,1,..., each equal to the written value except that a float printed without '.', exponent or '+' comes back as int64, byte slices come back as base 64 text, and ill-formed UTF-8 bytes in strings come back as U+FFFD. If a value contains such an integral float beyond int64 (not inside the first element of an array) all writes succeed, the entries before it are read, and the read then fails.", "quantifier": "all sequences of values of any nesting and size, any blank indent, any float formatting that prints integers plainly or parses back", "why_tests_cant": "All nestings, strings and numbers.", "anchors": ["dsio/json.go: JSONWriter.WriteEntry, valBytes, Close, JSONReader.ReadEntry, readValue, readObject, readArray"]}
{"id": "C10", "title": "JSON object write/read round trip", "statement": "Writing any sequence of entries with distinct non-empty keys with the object writer and reading it back yields the same pairs in the same order, with values changed only as for arrays; keys in valid UTF-8 are unchanged, other keys have ill-formed bytes replaced by U+FFFD. A float beyond int64 printed as an integer makes reading stop with an error after the entries before it.", "quantifier": "all sequences of entries with distinct non-empty keys, any blank indent", "why_tests_cant": "All keys (any bytes, escapes) and values.", "anchors": ["dsio/json.go: JSONWriter.valBytes, JSONReader.readKeyValuePair"]}
{"id": "C11", "title": "JSON writer history: rejected entries", "statement": "For every history of WriteEntry calls an object writer rejects an entry iff its key is empty, its key was passed before with a non-empty key (also when that entry was rejected for its value), or its value contains a float that cannot be encoded; an array writer rejects only the last. If the first call was accepted, or none was, the closed document is a valid one with exactly the accepted entries in order. If the first call was rejected and a later one accepted, an object document starts with '{' and a comma and reading it fails at once, and an array document reads back with an extra null in front.", "quantifier": "all histories of WriteEntry calls followed by Close, array and object mode, compact and pretty", "why_tests_cant": "All interleavings of accepted and rejected writes.", "anchors": ["dsio/json.go: JSONWriter.WriteEntry, valBytes, Close"]}
{"id": "C12", "title": "JSON writer reports I/O failures", "statement": "If every WriteEntry and Close on a compact JSON writer returned nil then every byte of the document reached the sink, for every sink that may fail at any call after any number of bytes. With pretty printing the same holds except that the line break before the closing bracket may be missing, because that write in Close is unchecked.", "quantifier": "all sinks failing at any subset of calls, all entry sequences", "why_tests_cant": "Every failure point.", "anchors": ["dsio/json.go: JSONWriter.WriteEntry, Close"]}
{"id": "C13", "title": "Truncated JSON is never mistaken for a complete document", "statement": "Reading any proper prefix of a JSON document (any spacing), in particular of one produced by the JSON writer, never ends in a clean EOF: it gives the first entries of the document, at most one further entry, and then an error other than EOF, or panics if the prefix ends in a backslash and one more character.", "quantifier": "all documents, all cut points, all buffer sizes and chunkings", "why_tests_cant": "Every crash point of a writer.", "anchors": ["dsio/json.go: JSONReader.ReadEntry, readArray, readObject"]}
{"id": "C14", "title": "JSON string escaping is inverted exactly", "statement": "Decoding the JSON encoding of any valid UTF-8 string returns the same bytes; for arbitrary bytes each byte that does not belong to a well-formed sequence becomes U+FFFD; an escaped surrogate half is decoded on its own even if the other half follows, so escaped surrogate pairs are not combined.", "quantifier": "all byte strings", "why_tests_cant": "All code points, escapes and malformed sequences.", "anchors": ["dsio/json.go: unquoteJSONString, readString"]}
{"id": "C15", "title": "A nested array whose first element is out of range is silently replaced", "statement": "If a row of a JSON array is an array whose first element is an integer outside int64, the reader returns an empty array for the row, returns the remaining elements of the row as further top-level entries, and reports a clean EOF at the end of that row: the rest of the document is ignored and no error is reported.", "quantifier": "all documents of that shape: any rows before it, any elements after it, anything after the row", "why_tests_cant": "Needs the precise parser state after the swallowed error.", "anchors": ["dsio/json.go: readArray"]}
{"id": "C16", "title": "JSON reading terminates on every input", "statement": "On every byte input, for every buffer size and chunking, reading to the end returns after at most as many entries as the input has bytes and ends in an error (io.EOF at a clean end); the only other outcome is a panic, possible only when the input ends in a backslash and one more character.", "quantifier": "all byte inputs", "why_tests_cant": "All inputs, including adversarial ones.", "anchors": ["dsio/json.go: JSONReader.ReadEntry, readValue"]}
{"id": "C17", "title": "CBOR write/read round trip", "statement": "Writing values with the CBOR writer and reading them back yields the same entries, for exactly the values whose integers are all >= -24 and < 2^63 and whose strings and keys are at most 4096 bytes; with any smaller integer or longer string the read returns the entries before it and then an error. Any supported encoding of the entries reads the same, whatever length the document declares.", "quantifier": "all value sequences (arrays) and all key/value sets (objects)", "why_tests_cant": "All nestings and magnitudes.", "anchors": ["dsio/cbor.go: CBORWriter.Close, CBORReader.ReadEntry, readValue, getVarLenInt, readBytes"]}
{"id": "C18", "title": "CBOR reading does not depend on how bytes arrive", "statement": "For every input and every chunking of the underlying reader the CBOR reader decodes the same entries with the same outcome. Entries without byte strings that the caller keeps stay as decoded while reading continues; byte strings do not, since they share the reader's buffer, and what they become depends on the chunking.", "quantifier": "all inputs and chunkings", "why_tests_cant": "All chunkings.", "anchors": ["dsio/cbor.go: CBORReader.readValue, readBytes"]}
{"id": "C19", "title": "Truncated CBOR is reported as a clean end", "statement": "For every document the CBOR writer produces and every cut point, reading the prefix never reports an error: it returns a prefix of the entries followed by EOF. Truncation is therefore undetectable for a caller of ReadAll. Cutting any other input changes nothing or ends it early with EOF.", "quantifier": "all written documents, all cut points", "why_tests_cant": "Every crash point.", "anchors": ["dsio/cbor.go: CBORReader.ReadEntry, readBytes, dsio/dsio.go: ReadAllArray"]}
{"id": "C20", "title": "CBOR writer history", "statement": "For every history of WriteEntry calls followed by Close the document contains exactly the accepted entries: for arrays all of them in order, for objects each non-empty key bound to its first value; a rejected entry leaves the writer unaffected.", "quantifier": "all histories", "why_tests_cant": "All interleavings.", "anchors": ["dsio/cbor.go: CBORWriter.WriteEntry, Close"]}
{"id": "C21", "title": "CBOR reading terminates on every input", "statement": "On every byte input every ReadEntry call terminates, and each successfully read entry consumes at least one byte.", "quantifier": "all inputs", "why_tests_cant": "Adversarial inputs with nested and indefinite lengths.", "anchors": ["dsio/cbor.go: readValue, readArray, readMap"]}
{"id": "C22", "title": "NDJSON write/read round trip", "statement": "Writing any sequence of JSON values with the NDJSON writer puts each on its own line (no encoded value contains a newline), and reading returns them in order with indexes 0,1,...: null, booleans, floats, text, arrays and objects come back equal, ill-formed UTF-8 comes back replaced, an integer comes back as the float of the same number, bytes come back as base64 text. A value nested deeper than the decoder's limit is written and is an error when read.", "quantifier": "all value sequences, all chunkings", "why_tests_cant": "All strings with embedded newlines and nested data.", "anchors": ["dsio/ndjson.go: NDJSONWriter.WriteEntry, NDJSONReader.ReadEntry"]}
{"id": "C23", "title": "NDJSON reads line by line and drops an unterminated last record", "statement": "On every byte stream, for every chunking and buffer size, the reader gives exactly one result per newline: the value if the line is one JSON text, otherwise an error other than EOF after which reading continues with the next line; indexes count the values only. Everything after the last newline is dropped and the reader reports a clean EOF.", "quantifier": "all streams, all chunkings", "why_tests_cant": "All streams.", "anchors": ["dsio/ndjson.go: NDJSONReader.ReadEntry"]}
{"id": "C65", "title": "NDJSON write results tell what arrived", "statement": "For every destination that fails in any way, a call to the NDJSON writer returns nil only if its whole line arrived, and on a destination that does not fail every value that can be encoded gets nil; after the destination failed once, every later call returns that same error and nothing more is sent; a value that cannot be encoded is refused without sending anything and without affecting later calls.", "quantifier": "all value sequences, all failure schedules", "why_tests_cant": "All failure points.", "anchors": ["dsio/ndjson.go: NDJSONWriter.WriteEntry"]}
{"id": "C24", "title": "CSV text round trip", "statement": "Writer and reader made from one structure: for every separator that is allowed, every sequence of rows, every buffer size of at least four bytes and every chunking, reading what was written returns the rows in order, except that in a cell CR LF and a lone CR may come back as LF, rows of no cell or one empty cell vanish, and (unless variadicFields is set) a row whose length is not that of the header or the first row is an error of its own, after which reading continues. Rows of one length without CR come back exactly. More generally the results of ReadEntry on any bytes are those of one unambiguous grammar of CSV and do not depend on the chunking. With a separator that is not allowed every read and every write of a row fails and nothing is written.", "quantifier": "all tables of text cells, all byte streams, all separators, all chunkings and buffer sizes", "why_tests_cant": "All cells with quotes, separators, newlines, leading spaces; all malformed inputs.", "anchors": ["dsio/csv.go: CSVWriter.WriteEntry, CSVReader.ReadEntry, NewCSVReaderSize, NewCSVWriter", "dsio/replacecr/replacecr.go: Reader"]}
{"id": "C25", "title": "CSV typed cells", "statement": "Reading casts each cell by its column's first type and leaves the cell as text exactly if the cast fails; values written to columns of their own type read back equal (JSON cells up to what JSON keeps); if a row has more cells than there are columns all cells are left as text. Nil, values of other types and lists or objects with NaN are not kept: they become empty cells or values of the column's type without any error. Creating a reader or writer panics exactly if the columns are valid and one has an empty type list.", "quantifier": "all rows, all column type lists", "why_tests_cant": "All texts and types.", "anchors": ["dsio/csv.go: decode, encode, NewCSVReaderSize, NewCSVWriter", "vals/type.go: ParseInteger, ParseBoolean, ParseNumber"]}
{"id": "C26", "title": "CSV header row is skipped exactly once", "statement": "With headerRow set, reading what was written returns exactly the data rows; without it every row is data. On any stream the header skipped is the first row that is read without error, and errors before it are returned. The claim fails for a single column with an empty title: the first data row is lost.", "quantifier": "all tables, all streams", "why_tests_cant": "All tables and titles.", "anchors": ["dsio/csv.go: HasHeaderRow, NewCSVWriter, CSVReader.ReadEntry"]}
{"id": "C27", "title": "CSV writer Close hides I/O errors", "statement": "Close on an uncompressed CSV writer returns nil for every sink, even when the sink rejected the bytes. What arrived is always a prefix of the full text; the first failing WriteEntry returns the sink's error and so do all later rows; without a failing sink everything arrives. That no reported error means that the rows arrived is false: a whole table can be lost without any error.", "quantifier": "all sinks, all entries", "why_tests_cant": "Every failure point.", "anchors": ["dsio/csv.go: CSVWriter.Close, CSVWriter.WriteEntry"]}
{"id": "C28", "title": "Spreadsheet column letters", "statement": "ColIndexToLetters agrees with the standard spreadsheet numbering (0->A, 25->Z, 26->AA, ...) for every index below 17576, which covers the format's 16384 columns, and hence is injective there; index 17576 collides with 676.", "quantifier": "all column indexes", "why_tests_cant": "Whole index range.", "anchors": ["dsio/xlsx.go: ColIndexToLetters, intToBase26, smooshBase26Slice, formatColumnName, largestLesserExponent"]}
{"id": "C29", "title": "Abstract column names", "statement": "AbstractColumnName yields a non-empty lowercase word for every non-negative index, the standard spreadsheet name in lower case below 676, and distinct names on 0..701. Two indexes share a name exactly when their base 26 digits differ only by 0 against 1 before the last digit (676 and 702 are the first pair). Every negative index panics.", "quantifier": "all integers", "why_tests_cant": "Whole index range.", "anchors": ["structure.go: AbstractColumnName, base26"]}
{"id": "C30", "title": "IdentityReader delivers exactly the data under every schedule", "statement": "Under every interleaving of the producer goroutine and the consumer, the entries received so far are a prefix of the source entries in order, each once, and EOF is returned only after all of them.", "quantifier": "all data slices, all interleavings, all consumer call sequences", "why_tests_cant": "Goroutine schedules.", "anchors": ["dsio/identity.go: NewIdentityReader, iterateSlice, iterateMap, ReadEntry"]}
{"id": "C31", "title": "IdentityReader can block for ever at the end", "statement": "For every data there is a schedule in which the consumer, having received all entries, blocks for ever in ReadEntry (and likewise in Close), because the end flag is set after the last send without closing the channel; no schedule can deadlock before the last entry is received.", "quantifier": "all data, all schedules", "why_tests_cant": "Needs a scheduler adversary.", "anchors": ["dsio/identity.go: ReadEntry, Close, iterateSlice"]}
{"id": "C32", "title": "Component Assign: last non-empty value wins", "statement": "For every component type and every list of sources, each field after Assign is the last non-zero value among the sources, or the old value if none; nil sources are skipped; assigning to an already equal component changes nothing; Assign(a,b) equals Assign(a) then Assign(b).", "quantifier": "all components, all lists of (possibly nil) sources", "why_tests_cant": "All field combinations.", "anchors": ["commit.go: Commit.Assign", "meta.go: Meta.Assign", "structure.go: Structure.Assign", "transform.go: Transform.Assign", "stats.go: Stats.Assign", "readme.go: Readme.Assign", "viz.go: Viz.Assign"]}
{"id": "C33", "title": "Dataset.Assign field rules", "statement": "Dataset.Assign gives every component the component-wise Assign of the sources and every assigned scalar its last non-empty value, except that ID keeps its first non-empty value and NumVersions and Qri are never taken from a source.", "quantifier": "all datasets, all lists of sources", "why_tests_cant": "All field combinations.", "anchors": ["dataset.go: Dataset.Assign"]}
{"id": "C34", "title": "Dataset.Assign shares components with its sources", "statement": "When the receiver lacks a component, Assign stores the source's own component object, so a later Assign into the receiver changes that source; when the receiver already has all components no source object is ever modified.", "quantifier": "all heaps of datasets", "why_tests_cant": "Aliasing over histories of calls.", "anchors": ["dataset.go: Dataset.Assign"]}
{"id": "C35", "title": "Dropping transient and derived values touches exactly the documented fields", "statement": "DropTransientValues and DropDerivedValues reset exactly their listed fields on every component and leave all other fields unchanged; both are idempotent and commute.", "quantifier": "all components and datasets", "why_tests_cant": "All field combinations.", "anchors": ["dataset.go: DropTransientValues, DropDerivedValues", "commit.go", "meta.go", "structure.go", "transform.go", "stats.go", "readme.go", "viz.go"]}
{"id": "C36", "title": "When a component is written as a bare path", "statement": "A component is encoded as a bare path string exactly when its path is non-empty and it is empty otherwise; for Structure the actual rule only looks at encoding and schema, so a structure with a path and, say, a format loses that format; for Meta arbitrary metadata is ignored by the emptiness test and lost.", "quantifier": "all components", "why_tests_cant": "All field combinations.", "anchors": ["commit.go: MarshalJSON", "meta.go: MarshalJSON", "structure.go: MarshalJSON", "transform.go", "stats.go", "readme.go", "viz.go", "dataset.go: MarshalJSON"]}
{"id": "C37", "title": "Component JSON round trip", "statement": "Decoding the JSON encoding of a component or dataset returns the same component up to exactly these losses: a bare path keeps only the path; otherwise the default kind is filled in, open files and secrets are dropped, empty maps, slices and byte strings become nil, readme and viz objects lose their path, metadata always gets kind md:0 and finds its keywords repeated among its arbitrary members. For metadata this needs arbitrary member names that do not match a metadata member up to case and are not data, image, keyword, length or timestamp; others are lost or make decoding fail. Encoding fails only for commit times outside years 0-9999.", "quantifier": "all components", "why_tests_cant": "All field combinations.", "anchors": ["commit.go: MarshalJSON, UnmarshalJSON", "meta.go", "structure.go", "transform.go", "stats.go", "readme.go", "viz.go", "dataset.go"]}
{"id": "C38", "title": "Re-encoding is stable", "statement": "Encoding, decoding and encoding again gives the same document, except exactly for structures that have a path, no encoding and an empty non-nil schema and for transforms that have a path and otherwise only empty maps, empty steps or secrets (and datasets holding such components or empty non-nil body bytes): those turn into a bare path. Encoding fills in kinds of the receiver; encoding again gives the same document and changes nothing more.", "quantifier": "all components", "why_tests_cant": "All components.", "anchors": ["commit.go", "stats.go", "structure.go", "transform.go", "readme.go", "viz.go", "hash.go: JSONHash"]}
{"id": "C39", "title": "Key order of encoded documents", "statement": "Encoded Meta, Readme, Viz and Stats documents have keys in strictly ascending order for every value; contrary to the documented alpha-key rule Commit objects are ordered exactly when they have no run id, Structure objects when not both errCount and entries are written, Transform objects when they have no text or nothing that follows it, Dataset objects when there is no readme, no version count after a path, peername, previous path or profile, and not both structure and stats.", "quantifier": "all components", "why_tests_cant": "All field combinations.", "anchors": ["dataset.go: package doc, Dataset", "commit.go: Commit", "structure.go: Structure", "transform.go: Transform"]}
{"id": "C40", "title": "Secrets never reach encoded documents", "statement": "For every transform, the encoded object is the same whatever its secrets are, has no secrets key and decodes to a transform without secrets; only the presence of a secrets map can show, by keeping the transform from being written as a bare path.", "quantifier": "all transforms", "why_tests_cant": "All secrets.", "anchors": ["transform.go: MarshalJSON, MarshalJSONObject"]}
{"id": "C41", "title": "Signing bytes identify what is signed", "statement": "SigningBytes depends only on ID, body path, commit time in whole seconds and component paths; two datasets whose these values contain no newline have equal signing bytes iff all of these are equal; with newlines allowed two different datasets can have equal signing bytes; sub-second time is not covered.", "quantifier": "all pairs of datasets", "why_tests_cant": "Injectivity over all pairs.", "anchors": ["dataset.go: SigningBytes", "kind.go: ComponentTypePrefix"]}
{"id": "C42", "title": "PathMap lists exactly the present components", "statement": "PathMap has an entry for a component iff the component is present (for body and dataset: has a path) and is not ignored; its value is that component's path; a nil dataset gives an empty map.", "quantifier": "all datasets and ignore lists", "why_tests_cant": "All combinations.", "anchors": ["dataset.go: PathMap"]}
{"id": "C43", "title": "Kind strings", "statement": "A kind that decodes without error has at least four bytes, so Type and Version never panic on it and together with the byte between them rebuild the kind; ComponentTypePrefix is injective in its text argument.", "quantifier": "all strings", "why_tests_cant": "All strings.", "anchors": ["kind.go: Kind.Valid, Type, Version, UnmarshalJSON, ComponentTypePrefix"]}
{"id": "C44", "title": "Data format names", "statement": "ParseDataFormatString inverts String for every known format, accepts exactly the documented names, and never maps two formats to one name; JSON decoding inverts JSON encoding; the unknown format cannot be encoded.", "quantifier": "all strings, all formats", "why_tests_cant": "All strings.", "anchors": ["data_format.go: ParseDataFormatString, String, MarshalJSON, UnmarshalJSON"]}
{"id": "C45", "title": "Format configuration maps", "statement": "Decoding the map form of CSV and XLSX options returns the same options, except that CSV options with a separator cannot be decoded from their own map form; NewCSVOptions accepts exactly well-typed maps.", "quantifier": "all option values and all maps", "why_tests_cant": "All maps.", "anchors": ["data_format_config.go: NewCSVOptions, CSVOptions.Map, NewXLSXOptions, XLSXOptions.Map"]}
{"id": "C46", "title": "File name and structure agree", "statement": "FormatFromFilename applied to any base name extended by Structure.AddFileFormatExtensions returns the structure's format and compression for every supported format name and compression name, for every base name.", "quantifier": "all base names, all supported formats and compressions", "why_tests_cant": "All base names with dots and slashes.", "anchors": ["detect/detect.go: FormatFromFilename", "structure.go: AddFileFormatExtensions, BodyFilename", "compression/compression.go: ParseFormat"]}
{"id": "C47", "title": "Step files round trip", "statement": "Write then Read returns the same scripts iff the list is non-empty and no script followed by the separator contains an earlier separator occurrence; Read then Write reproduces the file byte for byte for every file.", "quantifier": "all script lists, all files", "why_tests_cant": "All overlaps of scripts with the separator.", "anchors": ["stepfile/stepfile.go: Read, Write"]}
{"id": "C48", "title": "Typed comparison is a total preorder", "statement": "CompareTypeBytes orders strings by bytes and texts of 64-bit integers by value, with empty values first, and on these is a total preorder: antisymmetric and transitive; texts that are no such integers, and all other types except number, give an error; numbers are ordered by value as long as no NaN is among them (with NaN both orders report less). Type names round trip through TypeFromString except the name of the bytes type.", "quantifier": "all pairs and triples of byte strings", "why_tests_cant": "All triples.", "anchors": ["vals/compare.go: CompareTypeBytes, CompareIntegerBytes", "vals/type.go: TypeFromString, String, ParseInteger"]}
{"id": "C66", "title": "Type inference of texts", "statement": "For every byte string ParseType gives exactly one type: boolean for the boolean words, null for null, object or array if the first byte other than space and line feed is { or [, integer or number if that byte is a minus sign, a digit or the letter e and the text parses as a float (integer exactly if it is a signed numeral), and string for everything else.", "quantifier": "all byte strings", "why_tests_cant": "All byte strings.", "anchors": ["vals/type.go: ParseType, ParseBoolean, ParseInteger, IsBoolean, IsInteger"]}
{"id": "C49", "title": "Column statistics describe exactly the values of the column", "statement": "For every entry reader and every sequence of rows it yields, calculating statistics never panics; a reader failure gives an error naming the row. The report has one row per key (ascending, with key and type) for objects, one per index for arrays, one for scalar bodies, none for an empty body, and nested objects and arrays likewise. The kind of a column is that of its first value, and only values of that kind count: count, trueCount, falseCount, minLength and maxLength are exactly those of these values, min is the least of them and 2^63, max the greatest of them and -2^63, mean their float64 sum in order divided by their number, histogram and median those of a 32-bin sketch of them (so exact for at most 32 different numbers), frequencies keep every count of the top-k library under a label of at most 40 bytes of the text. It does not hold that min is one of the values (all values beyond 2^63), that a column starting with null counts its later values, that the statistics of a nested field called key or type survive, or that closing twice changes nothing.", "quantifier": "all readers, all sequences of rows of any nesting", "why_tests_cant": "All row sequences, nestings and orders.", "anchors": ["dsstats/stats.go: CalculateFromEntryReader, ToMap, Accumulator.WriteEntry, Close, arrayAcc, objectAcc, numericAcc, stringAcc, boolAcc, nullAcc"]}
{"id": "C50", "title": "Histogram sketch invariants", "statement": "For every n >= 1 and every sequence of values with positive counts added to a new sketch: Read gives at most n frequencies and one bin more, the absolute frequencies and Count add up to the number of values added whatever the rounding, Min and Max are the least and greatest value if all are finite float64, and with at most n different values (none NaN) the bins are exactly those values in ascending order with their exact frequencies. Without rounding the bins are strictly ascending, lie between Min and Max and keep the sum of the values; each merge joins the leftmost closest pair; Sum lies between 0 and the count and, with at most n different values, Sum(p) is the number of values up to p and Quantile(p) the first value whose middle rank exceeds p times the count. Quantile panics exactly for p outside 0..1 or an empty sketch, New for n = 0. It does not hold that float64 bins stay between Min and Max or finite, that frequencies are positive after merging, that Sum is monotone, that the median is the middle value, that Merge keeps the extremes, or that decoding restores the capacity and count.", "quantifier": "all value sequences, all n >= 1", "why_tests_cant": "Insertion orders, merges and roundings are unbounded.", "anchors": ["dsstats/histosketch/histosketch.go: New, Add, AddMany, Merge, Sum, Quantile, Read, MarshalBinary, UnmarshalBinary"]}
{"id": "C51", "title": "Structure detection only fills gaps and preserves the body", "statement": "detect.Structure on a dataset whose structure has a format, a schema and, for csv and xlsx, a format config reads and changes nothing; without such a structure and without a body it fails. Otherwise it reads the body: on success every structure field that was set is kept, format, compression, schema and (if the formats agree) format config are filled from the body's name and bytes, nothing else of the dataset changes, and the body file yields the original bytes and final error for every sequence of read sizes; a second call changes nothing, except for xlsx bodies and for a csv structure whose body has another extension. On error the dataset is unchanged but a prefix of the body may be gone. The schema is the one of the body name's format even if the structure says another.", "quantifier": "all datasets, names, bodies, chunkings and read sizes", "why_tests_cant": "All bodies and buffer read-aheads.", "anchors": ["detect/detect.go: Structure, FromReader, needsFormatConfig"]}
{"id": "C52", "title": "JSON/CBOR top level detection", "statement": "JSONSchema never answers wrongly; it answers array/object according to the first non-blank byte, and an error otherwise, if the source ends with EOF and the first read fills its buffer or has a non-blank byte; a short blank first read makes it reject a valid document. CBORSchema decides by the major type of the first byte; it always reports 1 byte read, although more are taken.", "quantifier": "all inputs and chunkings", "why_tests_cant": "All chunkings.", "anchors": ["detect/json.go: JSONSchema", "detect/cbor.go: CBORSchema"]}
{"id": "C53", "title": "CSV detection reports what the rows say", "statement": "CSVSchema reads the rows of the text as a lenient, blank-trimming CSV reader would, up to 2001 rows as wide as the first. It guesses a header exactly if every trimmed cell of the first row is neither empty, a number nor true/false; the schema has one column per cell of the first row, titled by the header cell or field_i, whose type is the smallest most frequent type among the sampled cells; variadicFields is set exactly if a sampled row has another width. A source that does not fail and has more than line breaks always gets a schema. The result does not depend on how the source is chunked, and n is the number of bytes taken.", "quantifier": "all texts, sources and chunkings", "why_tests_cant": "All texts, tallies and chunkings.", "anchors": ["detect/determineFields.go: CSVSchema, getKeys, possibleCsvHeaderRow"]}
{"id": "C54", "title": "Tabular schema columns", "statement": "ColumnsFromJSONSchema returns, for every schema of type array with nested items, one column per item in order with title, types, description and remaining members as the item says, default title col_i and default type string, and notes exactly the missing titles and types, all independent of the iteration order of maps; any other schema is an error. ValidMachineTitles accepts iff titles are all identifiers and pairwise distinct, and names exactly the offending columns. Type lists of at least one type survive encoding and decoding.", "quantifier": "all schemas", "why_tests_cant": "All schemas.", "anchors": ["tabular/tabular.go: ColumnsFromJSONSchema, ValidMachineTitles, ColType.MarshalJSON, ColType.UnmarshalJSON"]}
{"id": "C55", "title": "Validation rules", "statement": "validate.Dataset accepts exactly datasets with a commit whose title has at most 100 bytes and a nil structure or one with a known format and a schema; ValidName accepts exactly 1..144 character identifiers starting with a letter.", "quantifier": "all datasets and names", "why_tests_cant": "All inputs.", "anchors": ["validate/dataset.go: Dataset, Commit, Structure, Schema", "validate/validate.go: ValidName"]}
{"id": "C56", "title": "Batched validation sees every entry exactly once", "statement": "EntryReader cuts the entries it reads, in order, into batches of 5000 (the last may be shorter); every entry is in exactly one batch. Each batch is checked as a JSON document of its own, as its entries read back from JSON, and the result is the errors of the batches in order. It succeeds only if the reader ended with EOF and every batch could be written: no value without JSON and, for an object, distinct non-empty keys within the batch; otherwise it returns an error. Checking the whole body as one document is something else: an empty body is never checked, limits on the number of entries are not seen past 5000, and a key repeated in a later batch is not noticed.", "quantifier": "all readers, entry counts and schemas", "why_tests_cant": "All lengths around batch boundaries.", "anchors": ["validate/data.go: EntryReader, flushBatch", "dsio/entry_buffer.go: NewEntryBuffer, WriteEntry, Close", "structure.go: JSONSchema"]}
{"id": "C57", "title": "Preview keeps the files readable", "statement": "After a successful preview.Create the body file and the readme script file still deliver all their original bytes (and end with the same error) and keep their paths; the readme text is the whole readme if it is shorter than 997 bytes, otherwise its first 997 bytes and an ellipsis; the body is a JSON text of the leading entries of the body, at most 100, ending early only before an entry that cannot be read or written, which is not reported; nothing else of the dataset changes. A nil or empty dataset and a readme that breaks off within 997 bytes are errors, after which the readme has lost bytes; a body without a structure panics.", "quantifier": "all datasets, files, ways of splitting reads, and entry readers that use the file through Read", "why_tests_cant": "All file lengths, read sizes and entry readers.", "anchors": ["preview/preview.go: Create", "dsio/dsio.go: ConvertFile"]}
{"id": "C58", "title": "Content hashes are injective encodings", "statement": "HashBytes never fails: it returns the base58 text of the bytes 18, 32 and the FIPS 180-4 sha-256 digest of the data. Base58 texts are the exact base-58 notation with one leading 1 per leading zero byte, so two byte strings get the same hash iff their digests are equal. A hash is always 46 characters of the base58 alphabet starting with Qm. Two values have the same JSONHash only if the digests of their JSON encodings are equal.", "quantifier": "all byte strings", "why_tests_cant": "All byte strings.", "anchors": ["hash.go: HashBytes, JSONHash"]}
{"id": "C59", "title": "Generated rows conform to the schema", "statement": "Every row of a TabularGenerator has one value per column, of the column's first type, and consecutive indexes; generated strings are alphanumeric and shorter than the maximum (64, or the configured one); generated booleans are always true; a column of an unknown type gets a scalar of a random type. A column without a type makes ReadEntry panic. The generator never ends by itself; behind a PagedReader it gives exactly as many rows as asked for. The random-type option has no effect.", "quantifier": "all schemas and all random streams", "why_tests_cant": "All random streams.", "anchors": ["generate/tabular.go: ReadEntry", "generate/value.go: Type, String, Bool"]}
{"id": "C60", "title": "Meta.Set changes one field", "statement": "Meta.Set on a recognised key (any case, surrounding blanks) changes only that field; on any other key it only binds that key in the arbitrary metadata; on a type error the addressed string field is cleared, not preserved.", "quantifier": "all metas, keys and values", "why_tests_cant": "All keys and values.", "anchors": ["meta.go: Set, SetArbitrary, strVal, strSliceVal"]}
{"id": "C61", "title": "Opening bodies and scripts", "statement": "OpenBodyFile fails on inline bodies, prefers inline bytes, then the path through the resolver; Open/InlineScriptFile prefer inline text; after a successful inline the text is the file content and the script path is empty; any failure leaves text and path unchanged. In-memory files have the name of the body path (body if there is none), readme.md, template.html or transform.star. Rendered files are opened by path only, and without a resolver a path is an error that leaves everything as it was.", "quantifier": "all datasets, resolvers and failures", "why_tests_cant": "All resolvers.", "anchors": ["dataset.go: OpenBodyFile", "transform.go: OpenScriptFile, InlineScriptFile", "readme.go", "viz.go"]}
{"id": "C62", "title": "Diff summaries follow the priority order", "statement": "MapDiffsToString returns the summary of the first component in the order structure, data, transform, meta, viz that has a non-empty summary, independent of map order; an empty string iff none has one. DiffDatasets compares a structure if either side has one; data only if it is handed over; meta unless both are stored at the same path (two or more characters) or, without two such paths, both are empty; transform and viz unless stored at the same path, ignoring the script path of a transform if both have one. Missing components count as empty ones. A dataset does not differ from itself. Not seen: another body path, and metas that differ only in the user's own fields.", "quantifier": "all datasets, diff maps, JSON comparisons and component encodings", "why_tests_cant": "All maps and datasets.", "anchors": ["dsdiff/dsdiff.go: MapDiffsToString, SummarizeToString, DiffDatasets, DiffStructure, DiffData, DiffTransform, DiffMeta, DiffViz"]}
{"id": "C63", "title": "ShallowCompare is an equivalence that ignores only location and files", "statement": "ShallowCompare on readme, viz and transform is an equivalence relation; two components are related iff they agree on every exported field except Path.", "quantifier": "all pairs and triples", "why_tests_cant": "All pairs.", "anchors": ["readme.go: ShallowCompare", "viz.go: ShallowCompare", "transform.go: ShallowCompare"]}
{"id": "C64", "title": "Rendering helpers", "statement": "printByteInfo picks the largest unit not exceeding the size, with a floor quotient and a plural s iff the quotient is not 1. isType answers by kind for string, object, array, boolean, number and is an error for other names. bodyEntries returns exactly the requested window if offset and limit are not negative and otherwise everything, as a list or as a map of last values; a reading error is reported unless the window was full before it. On success the body file then delivers what the reader consumed: all of it if the reader reached the end, less if a window stopped early; on an error it delivers what was left. Render refuses datasets without an html viz, and leaves a script that could be read readable again whatever the template does.", "quantifier": "all sizes, values, bodies, windows, entry readers and templates", "why_tests_cant": "All sizes, windows and readers.", "anchors": ["dsviz/render.go: Render, renderHTML, printByteInfo, isType, bodyEntries, readEntries"]}
{"id": "C67", "title": "A table without a schema gets one that describes it", "statement": "TabularSchemaFromTabularData on an array whose first entry is an array returns a schema from which ColumnsFromJSONSchema gets one column per cell of that row without problems, titled col_0, col_1, ..., valid as machine titles, with the type of the cell. It fails exactly on objects, empty arrays and arrays whose first entry is not an array; a scalar yields an empty schema that describes no table.", "quantifier": "all values and map iteration orders", "why_tests_cant": "All tables.", "anchors": ["detect/detect.go: TabularSchemaFromTabularData, goDataType", "tabular/tabular.go: ColumnsFromJSONSchema, ValidMachineTitles"]}
{"id": "C68", "title": "Row length check of CSV", "statement": "CheckCsvRowLengths returns no error exactly if the text, read with strict quotes and white space before cells left out, consists of at least one row and all rows have the same number of cells; any unbalanced or stray quote, failing source, empty text or row of another width is an error. The outcome does not depend on how the source delivers its bytes.", "quantifier": "all sources and buffer sizes", "why_tests_cant": "All texts and deliveries.", "anchors": ["validate/csv.go: CheckCsvRowLengths"]}
{"id": "C69", "title": "Spreadsheets hold the written rows", "statement": "Writing entries to a spreadsheet puts the i-th value of the k-th accepted entry into column i of row k of the configured sheet and nothing else, for rows of up to 17576 cells; an entry is accepted iff it is a list all of whose values have a text (nil is an empty one; bytes and values without JSON have none), and a refused entry takes no row. Reading the file back yields the rows in order, numbered from 0, each cell cast by its column's first type as in CSV, then the end; values of their columns' types come back. Close reports a failing destination. Compression is refused, an unusable sheet name is refused only by the writer, a column without types panics. Null does not come back; in wider rows a later cell replaces an earlier one.", "quantifier": "all entries, schemas, configurations, destinations", "why_tests_cant": "All tables and write histories.", "anchors": ["dsio/xlsx.go: NewXLSXReader, ReadEntry, decode, NewXLSXWriter, WriteEntry, axis, Close, encodeStrings"]}
{"id": "C70", "title": "Conversions between formats keep the entries, and where they do not", "statement": "ConvertFile from a JSON array to CBOR writes exactly the entries that offset and limit (or all) choose, for every configuration, compression and buffer; from a written CBOR array to JSON it writes the JSON of the chosen values before the first one that CBOR cannot be read back with (an integer below -24, a string longer than 4096 bytes). There and back gives the chosen values up to that point. A JSON object becomes the CBOR map of the chosen pairs before the first empty or repeated key, a CBOR map the JSON object of its pairs in key order. A JSON array or object becomes one line per value, without the keys; lines become the JSON array of their values before the first line that is not JSON. A JSON array that was cut short converts successfully to the values before the cut and at most one more. Conversion never succeeds with an unknown format, an unknown compression, a missing schema (JSON, CBOR, NDJSON), or lines read under a schema that is not an array. So success does not mean that everything was converted.", "quantifier": "all documents, structures, compressions without loss, windows, sources and deliveries", "why_tests_cant": "All documents and pairs of formats.", "anchors": ["dsio/dsio.go: ConvertFile, NewEntryReader, NewEntryWriter, maybeWrapDecompressor, maybeWrapCompressor", "dsio/json.go: NewJSONReader, NewJSONWriter, NewJSONPrettyWriter", "dsio/cbor.go: NewCBORReader, NewCBORWriter", "dsio/ndjson.go: NewNDJSONReader, NewNDJSONWriter"]}
{"id": "C71", "title": "Texts of a type stand for values, and back", "statement": "Type.Parse returns a value exactly for the texts that stand for one: any text as a string, a decimal integer within int64 as an integer, the twelve words of strconv.ParseBool as a boolean, what ParseFloat takes as a number, and as an array or an object any JSON array or object; types null, bytes and unknown parse nothing. It never panics. ValueToString and ValueToBytes give the same bytes and answer exactly for a string, int, float64 or bool as that type, and for anything with JSON as an array or object. The text of a value parses to that value again (an int as an int64); a parsed value written and parsed again is the same, except that ValueToString refuses every parsed integer. On JSON documents JSONArrayOrObject tells what the document is. The JSON of a type reads back exactly for the seven named types; UnmarshalJSON takes exactly JSON strings with such a name. Every integer text is a float text.", "quantifier": "all types, texts, values and nesting limits", "why_tests_cant": "All texts and values.", "anchors": ["vals/type.go: Parse, ParseString, ParseNumber, ParseInteger, ParseBoolean, ParseJSON, JSONArrayOrObject, ValueToString, ValueToBytes, MarshalJSON, UnmarshalJSON, IsFloat"]}
{"id": "C72", "title": "JSON texts become exactly their Values", "statement": "UnmarshalJSON returns a Value exactly for JSON documents whose numbers fit (integers in 64 bits, all numbers in a float32): the array or object of the document, or a pointer to its scalar; numbers written with digits only are Integers, all others Numbers; of a repeated key the last value counts. It never panics. Following Index and MapIndex from the Value leads exactly to the Values of the parts of the document. Printing a Value and reading the text gives the Value back, if strings are UTF-8 and no Number prints like an integer. A Number such as 3.0 comes back as an Integer. Only spaces and line breaks may precede an array or object; blanks around a number or boolean are an error, and null with blanks around it is an empty string.", "quantifier": "all texts, Values, paths and nesting limits", "why_tests_cant": "All texts.", "anchors": ["vals/coding.go: UnmarshalJSON, unmarshalObject, unmarshalArray", "vals/value.go: MarshalJSON"]}
{"id": "C73", "title": "Decoded values become exactly their Values", "statement": "ConvertDecoded returns a Value exactly for data built of nil, integers, float64, strings, booleans, slices, and maps with string keys; anything else, at any depth, is an error, never a panic. Integers keep their value modulo 2^64 as signed 64-bit integers, so uint64 values from 2^63 on turn negative; arrays and objects come as pointers at every level. For a JSON array or object, decoding it and converting the result gives the data that UnmarshalJSON gives, with floats for integers; but Equal says that the two results differ.", "quantifier": "all decoded values and documents", "why_tests_cant": "All nested values.", "anchors": ["vals/coding.go: ConvertDecoded"]}
{"id": "C74", "title": "The type of a Value tells its methods, and Equal compares content", "statement": "Len answers exactly on arrays, Index exactly within the length, Keys and MapIndex exactly on objects (and MapIndex finds exactly the Keys), Boolean, Integer and Number exactly on values of those types (Number also on Integers); otherwise they panic; IsNull says yes exactly to nulls. They return the content. String returns the text of a string and for all others a description in angle brackets: the type, with the value of a boolean and the number of keys of an object; a string can look like such a description. This holds through pointers and ObjectValues. Equal never panics; it says yes exactly to scalars of one type with the same content and to arrays or objects built the same way, pointers included. It is symmetric and transitive if equality of floats is, and a Value equals itself exactly if it holds no NaN. An Integer never equals a Number.", "quantifier": "all Values", "why_tests_cant": "All nested values.", "anchors": ["vals/value.go", "vals/compare.go: Equal", "vals/object_value.go"]}
{"id": "C75", "title": "What dataset comparisons look at", "statement": "CompareDatasets changes neither dataset, nor their components, nor anything else. Without options it returns no difference exactly if all exported fields of the datasets and their components agree, except Qri and NumVersions of the dataset, which it never sees; a missing dataset counts as an empty one; arbitrary metadata does not count. With OptDropTransientValues the body, name, path, peername and profile of the expected dataset do not count, but the other dataset must have none of them: a named dataset then differs from itself, and the order of the arguments matters. CompareCommits, CompareMetas and CompareStructures compare all exported fields, with the option all but the path, which the second component must not have.", "quantifier": "all datasets, components and sharing between them", "why_tests_cant": "All field values and sharing.", "anchors": ["dstest/compare.go: CompareDatasets, CompareCommits, CompareMetas, CompareStructures, OptDropTransientValues"]}
{"id": "C76", "title": "Durations of periodicities", "statement": "AccuralDuration is positive exactly for nineteen periodicity texts and zero for every other text. A recognised whole number of days, weeks, months of 30 days or years of 365 days lasts that many units, except that 2 months last 300 days, 3 months a seventh and 4 months a quarter of a year; a third of a week or month and half a month are exact, 3.5 days count as 4. So a longer period may have a shorter duration.", "quantifier": "all texts", "why_tests_cant": "All texts.", "anchors": ["meta.go: AccuralDuration"]}
{"id": "C77", "title": "Conversions from and to tables of comma-separated values", "statement": "ConvertFile from a JSON array to CSV writes, with the separator of the structure, the titles if asked for, and then one row of cell texts for every chosen value before the first that is no array. From a CSV text that is a table it writes the JSON or CBOR array of the chosen rows before the first one whose number of cells differs, each cell as the value its column's type makes of it; empty rows are left out and the titles are no data. Both report success when they stop early. From JSON to CSV and back, rows with one cell per column, each of its column's own type, without carriage returns and not empty, come back. Null, texts that read as another type, short and empty rows do not.", "quantifier": "all documents and tables, structures with typed columns, separators that encoding/csv allows, compressions without loss, windows, sources and deliveries", "why_tests_cant": "All documents, tables and structures.", "anchors": ["dsio/dsio.go: ConvertFile, NewEntryReader, NewEntryWriter", "dsio/csv.go: NewCSVReader, NewCSVWriter, ReadEntry, WriteEntry, Close"]}
{"id": "C78", "title": "An entry buffer gives back what was written to it", "statement": "For every structure that is neither compressed nor a workbook, writing any entries to an EntryBuffer, closing it and then reading it answers what a writer of that structure, its Close, and then a reader of what it wrote answer; until the first read Bytes is all that was written. Under any other order of calls: a buffer of JSON lines is a first-in first-out queue, answers EOF exactly while it is empty, can be filled again, and Close changes nothing. A buffer of a JSON array is such a queue too, but while it is empty and not closed it answers an error other than EOF, and EOF just once after it is closed. A buffer of a CBOR array answers EOF to every read before Close, then gives all entries up to the first that cannot be read back. No buffer is made of a workbook, or of a compression whose empty text is an error.", "quantifier": "all structures, entries, orders of calls", "why_tests_cant": "All histories of calls.", "anchors": ["dsio/entry_buffer.go"]}
{"id": "C79", "title": "Statistics are about the values of a body, not its format", "statement": "Calculate gives the same statistics for any two bodies that hold the same values in the same order, be they JSON or CBOR arrays or objects, JSON lines or tables, however compressed, or workbooks; an integer counts as its float at any depth. They are the statistics C49 describes, of all the values. Keys of an object body do not count. A body with a CBOR value that cannot be read, a line that is no JSON, or a row with another number of cells has no statistics but an error, and so has a JSON body that was cut short, unless the cut is just behind an escape. Converting a JSON array to CBOR keeps the statistics. Without a body, a structure, a schema, or a known format there is an error. A CBOR body cut between entries and a last line without a line feed are not noticed: the statistics are of the entries before.", "quantifier": "all bodies, structures, formats, compressions without loss, sources and deliveries", "why_tests_cant": "All bodies and pairs of formats.", "anchors": ["dsstats/stats.go: Calculate, CalculateFromEntryReader", "dsio/dsio.go: NewEntryReader, EachEntry"]}
{"id": "C80", "title": "Conversions between any two formats keep what both can store", "statement": "ConvertFile from a body in any format (JSON or CBOR array or object, JSON lines, table of comma-separated values, workbook) to an array structure of any format succeeds if that format can store the chosen values, and every reader of the result, however it is delivered, gets the values as stored: JSON replaces ill-formed text and makes text of byte slices, JSON lines make floats of integers, CBOR stores what its reader can read, tables and workbooks store rows of cells that each have their column's type. So any chain of conversions whose steps can store what the one before gave comes to an end, every body it ends with holds the values of its last step, and two chains that change no value end with bodies that have the same statistics. Other values change: a workbook makes text of null and a boolean of the text true.", "quantifier": "all bodies, structures, pairs of formats and chains of any length, windows in a single conversion, compressions without loss, sources and deliveries", "why_tests_cant": "All pairs of formats, and chains of every length.", "anchors": ["dsio/dsio.go: ConvertFile, NewEntryReader, NewEntryWriter", "dsio/json.go", "dsio/cbor.go", "dsio/ndjson.go", "dsio/csv.go", "dsio/xlsx.go", "dsstats/stats.go: Calculate"]}
{"id": "C81", "title": "Bodies whose structure was detected can be read, and which cannot", "statement": "For a dataset that says nothing about its structure, detection followed by reading the same bytes gives the values of any JSON array or object, CBOR array or map, or lines of JSON, then the end. Detection succeeds for every such document (JSON: if the first read gives 100 bytes or more than blanks). For a CSV table of cells without CR and without white space in front, with a row that is no empty line, detection succeeds; the first row is taken as titles exactly if its cells look like names; each column has the commonest type of the cells looked at; all rows are read with these types if all have as many cells as the first or a row looked at does not, and otherwise reading fails. Compressed lines can be read; compressed JSON and CBOR are refused with the dataset unchanged. A spreadsheet can never be read with its detected structure. A first row of texts is lost as titles, and cells with a space in front are found to be integers but read as texts.", "quantifier": "all documents, tables, names, sources, deliveries and buffers", "why_tests_cant": "All documents and tables.", "anchors": ["detect/detect.go: Structure, FromReader", "detect/determineFields.go: Schema, CSVSchema, JSONSchema, CBORSchema, NDJSONSchema, XLSXSchema", "dsio/dsio.go: NewEntryReader", "dsio/json.go: NewJSONReader", "dsio/csv.go: NewCSVReader", "dsio/cbor.go: NewCBORReader", "dsio/ndjson.go: NewNDJSONReader", "dsio/xlsx.go: NewXLSXReader"]}
{"id": "C82", "title": "Datasets survive being saved as JSON text", "statement": "The JSON bytes that a dataset or a component is marshalled to decode to the same value again, up to the differences C37 allows, however the text is re-indented or its strings are escaped. This holds for texts that are UTF-8, counts within 64 bits, times of the years 0 to 9999, and numbers in bodies, schemas and other free-form parts that float64 holds. Times are read from exactly the RFC 3339 texts that name them, in any zone, and written to the nanosecond. Datasets with equal JSON texts are written as equal documents, and so are structures with equal hashes unless SHA-256 collides. Bytes that are no JSON are refused, and so are counts that are no 64-bit integers, timestamps that are no RFC 3339 texts and body bytes that are no base 64. Unmarshalling anything reports no error exactly for a component and for bytes that decode. Not so for texts that are not UTF-8, which come back altered, and for free-form numbers beyond float64, which come back rounded while counts are exact.", "quantifier": "all datasets, components, documents, JSON texts of them and nesting limits", "why_tests_cant": "All datasets and all texts of them.", "anchors": ["commit.go: MarshalJSON, UnmarshalJSON, UnmarshalCommit", "structure.go: MarshalJSON, UnmarshalJSON, Hash, UnmarshalStructure", "transform.go: MarshalJSON, UnmarshalJSON", "meta.go: MarshalJSON, UnmarshalJSON", "dataset.go: MarshalJSON, UnmarshalJSON, UnmarshalDataset", "readme.go: MarshalJSON, UnmarshalJSON", "viz.go: MarshalJSON, UnmarshalJSON", "stats.go: MarshalJSON, UnmarshalJSON"]}
{"id": "C83", "title": "Validation of bodies does not depend on their format", "statement": "Validating a body of arrays against its schema finds what the schema finds in the body's values: in one document of all values if there are at most 5000 of them, else in documents of 5000 values each, in order, and nothing in a body without entries. So JSON, newline delimited JSON, CBOR, CSV and workbook bodies with the same values, compressed or not, read in pieces of any size, get the same errors, and converting a body through any formats that can store its values does not change them. An object body is checked as objects of 5000 of its pairs each. A body with a value, line or row that cannot be read, a JSON body that was cut short, a value without JSON such as a float that is no number, a body in no known format or that cannot be decompressed, and a schema that does not compile or is no schema of arrays or objects are errors, not verdicts. Not so for CBOR that was cut behind an entry and for a last line without its end: these are validated as if the missing entries were not there.", "quantifier": "all bodies, structures, schemas, checks and conversions", "why_tests_cant": "All bodies in all formats and all schemas.", "anchors": ["validate/data.go: EntryReader, flushBatch", "dsio/dsio.go: NewEntryReader", "structure.go: JSONSchema", "dsio/dsio.go: ConvertFile"]}
{"id": "C84", "title": "Test cases are what their directories hold, and golden files", "statement": "A directory loads as a test case exactly if it has at least one of an input dataset, a body, a transform, a template, a readme and an expected dataset, and every one of them that can be opened can be read, the datasets being required to decode; otherwise there is an error. The case has the contents and names of these files, the body being the first that opens in the order cbor, json, csv, xlsx, ndjson. Its input dataset is the one of the file, or an empty one, with the name of the directory and with handles to just these files; nothing else is changed. LoadTestCases gives the sub-directories that load, under their names, and leaves out the others. BodyFilepath is the body that is read, except that it also names a file that cannot be opened. A golden test passes exactly if the file decodes to a dataset that agrees in every exported field but Qri and NumVersions. The file is changed only by a mismatch with updates switched on, and then it is an indented text of the dataset found. The next run with that dataset passes exactly if its components have kinds (or are bare paths), meta the kind md:0, readme and viz no path, and there are no empty maps or lists and no secrets: for others the golden file never matches.", "quantifier": "all directories, names, datasets, golden files and runs", "why_tests_cant": "All directories and datasets.", "anchors": ["dstest/dstest.go: NewTestCaseFromDir, LoadTestCases, BodyFilepath, ReadBodyData, ReadDataset", "dstest/golden.go: CompareGoldenDatasetAndUpdateIfEnvVarSet, LoadGoldenFile, UpdateGoldenFileIfEnvVarSet", "dstest/compare.go: CompareDatasets"]}
{"id": "C85", "title": "What pages and previews show of a body does not depend on its format", "statement": "In a template bodyEntries(offset, limit) is the list of the body's values from offset on, at most limit of them, and all of them if one of the two numbers is negative, as for allBodyEntries; it is the same for JSON, CBOR, JSON lines, CSV and workbook bodies with the same values, compressed or not, read in pieces of any size. Of an object body it is the map from each key to its last value among the pairs in the window. If all is asked for, a body with a value, line or row that cannot be read, or that is JSON cut short, is an error. The preview of a body of arrays is a JSON text of its first hundred values, and bodies that agree in these have the same preview, byte for byte. Not so for errors: a preview of a body that cannot be read, and a page whose window is full before, are those of the values before the error, without one.", "quantifier": "all bodies, structures, formats, windows, sources and deliveries", "why_tests_cant": "All bodies in all formats and all windows.", "anchors": ["dsviz/render.go: bodyEntries, allBodyEntriesFunc, bodyEntriesFunc, readEntries", "preview/preview.go: Create", "dsio/dsio.go: NewEntryReader, ConvertFile", "dsio/streams.go: PagedReader"]}
{"id": "C86", "title": "Empty components and references, and merging them", "statement": "A component is empty exactly if nothing but its path and kind is set; open files do not count, nor the arbitrary members of meta, nor the version count of a dataset. The result of Assign is empty exactly if the receiver and every source are. Empty sources change nothing but path and kind, except that scripts can bring an open script file, datasets an open body file (and no kind), and meta its arbitrary members, although it counts as empty. A new reference (NewCommitRef, ...) is empty, is written as the bare path, and that path is read back as the reference; only NewStructureRef has a kind, which the read one has not. Merging a reference with a path sets the path, and for structures the kind, and nothing else. A structure that is written as a bare path need not be empty.", "quantifier": "all components, datasets, lists of sources and paths", "why_tests_cant": "All values of all fields.", "anchors": ["commit.go: NewCommitRef, Commit.IsEmpty, Assign", "meta.go: NewMetaRef, Meta.IsEmpty, Assign", "structure.go: NewStructureRef, Structure.IsEmpty, Assign", "stats.go: NewStatsRef, Stats.IsEmpty, Assign", "transform.go: NewTransformRef, Transform.IsEmpty, Assign", "readme.go: NewReadmeRef, Readme.IsEmpty, Assign", "viz.go: NewVizRef, Viz.IsEmpty, Assign", "dataset.go: NewDatasetRef, Dataset.IsEmpty, Assign"]}
{"id": "C87", "title": "Formats that require a tabular schema", "statement": "RequiresTabularSchema is true exactly for the format names csv and xlsx. If it is true and the schema does not describe a table (or there is none), then neither an entry reader nor an entry writer can be made, whatever the source and the options. For the formats json, ndjson and cbor it is false, and any schema of type array will do for readers and writers. The names .csv and .xlsx stand for the same formats and need a tabular schema as well, but RequiresTabularSchema is false for them.", "quantifier": "all format names, schemas, options, sources and destinations", "why_tests_cant": "All schemas and structures.", "anchors": ["structure.go: RequiresTabularSchema, DataFormat", "dsio/dsio.go: NewEntryReader, NewEntryWriter", "tabular/tabular.go: ColumnsFromJSONSchema"]}
