# ---- dsio streams ----
prop("C01","CR normalising reader loses nothing and adds only newlines after lone CRs",
 "For every byte stream and every sequence of Read buffer sizes, the concatenation of what replacecr.Reader delivers is the source stream with a '\\n' inserted after some lone '\\r' bytes and nothing else changed, lost or reordered; a lone '\\r' is left without its '\\n' exactly when it lands in the last slot of the caller's buffer. Hence the output is the fully normalised stream whenever no lone CR lands in a last slot, sources without lone CRs are passed through unchanged, and the result does depend on the read sizes in general.",
 "all byte streams, all finite sequences of Read sizes (including 0 and 1)",
 "The defect sits at an alignment of stream position and buffer size; there are unboundedly many alignments.",
 ["dsio/replacecr/replace_cr.go: Reader, ReaderWithSize, crlfReplaceReader.Read"])
prop("C02","TrackedReader counts every byte it hands out",
 "After any sequence of Read calls on any source (including short reads and errors) BytesRead equals the total number of bytes delivered to callers, and the bytes, counts and errors delivered are exactly those of the wrapped reader.",
 "all sources, all sequences of read calls","The count must agree over every history of short reads and errors.",
 ["dsio/tracked_reader.go: TrackedReader.Read, BytesRead"])
prop("C03","PagedReader yields exactly the requested window",
 "Reading a PagedReader with offset o and limit l to its end yields exactly entries o..o+l-1 of the wrapped reader, in order, and then EOF; a negative limit means no limit; an error of the wrapped reader inside the skipped prefix or the window is passed on at its position; entries beyond the window are never read from the wrapped reader.",
 "all underlying entry sequences (with an error at any position), all integer offsets and limits","Off-by-one behaviour over every offset/limit/length combination.",
 ["dsio/streams.go: PagedReader.ReadEntry"])
prop("C04","Copy moves every entry in order and stops at the first error",
 "Copy writes to the writer exactly the entries read before the first read error or rejected write, in order; it returns nil iff the reader reached EOF with every write accepted.",
 "all readers (entry sequences ending in EOF or any error) and all writers that may reject any entry","Every failure position matters.",
 ["dsio/streams.go: Copy"])
prop("C05","ReadAll returns every entry",
 "ReadAll on an array reader returns all values in order; on an object reader it returns a map in which every key is bound to its last value; any non-EOF error discards everything and is reported with its one-based position.",
 "all readers","Quantifies over all entry sequences and error positions.",
 ["dsio/dsio.go: ReadAll, ReadAllArray, ReadAllObject, GetTopLevelType"])
prop("C06","EachEntry visits entries once, in order, with consecutive indexes",
 "EachEntry calls the callback on each entry in order with index 0,1,2,..., stops at the first callback error or read error, treats EOF from either as success, and never calls the callback after that.",
 "all readers and all (stateful) callbacks","All histories of callbacks.",
 ["dsio/entry.go: EachEntry"])
prop("C07","ConvertFile reports success only with the whole selection? It does not",
 "ConvertFile returns the encoding of the selected window when source and target accept every entry; but an error while reading the source or encoding an entry in the middle is dropped: the call returns a nil error together with the encoding of the entries before the failure.",
 "all sources, windows and failure positions","Failure at every position.",
 ["dsio/dsio.go: ConvertFile"])
# ---- JSON ----
prop("C08","JSON reading does not depend on how bytes arrive, except after a misspelled literal",
 "For every document in which no word outside strings starts like null, true or false without being it (or being cut off by the end), JSONReader returns the same entries and the same final error for every buffer size, every way the bytes are split over Read calls and every error the source ends with; the only other outcome is a panic, possible only when the document ends in a backslash and one more character. For misspelled words the claim is false: '[[nul,1]]' after eleven spaces is an error with a 4096 byte buffer and reads cleanly as [] and 1 with a 16 byte buffer.",
 "all byte documents, all buffer sizes, all chunkings and final source errors, array and object mode","Requires all chunkings at all buffer boundaries.",
 ["dsio/json.go: JSONReader.ReadEntry, currentBuffer, extendBuffer, readLiteralToken, readString, readNumber, extractFromBuffer, extractBytesFromBuffer"])
prop("C09","JSON array write/read round trip",
 "Every sequence of values that Marshal accepts, written with the array writer (compact or pretty) and read back, gives the same number of entries in order with index 0,1,..., each equal to the written value except that a float printed without '.', exponent or '+' comes back as int64, byte slices come back as base 64 text, and ill-formed UTF-8 bytes in strings come back as U+FFFD. If a value contains such an integral float beyond int64 (not inside the first element of an array) all writes succeed, the entries before it are read, and the read then fails.",
 "all sequences of values of any nesting and size, any blank indent, any float formatting that prints integers plainly or parses back","All nestings, strings and numbers.",
 ["dsio/json.go: JSONWriter.WriteEntry, valBytes, Close, JSONReader.ReadEntry, readValue, readObject, readArray"])
prop("C10","JSON object write/read round trip",
 "Writing any sequence of entries with distinct non-empty keys with the object writer and reading it back yields the same pairs in the same order, with values changed only as for arrays; keys in valid UTF-8 are unchanged, other keys have ill-formed bytes replaced by U+FFFD. A float beyond int64 printed as an integer makes reading stop with an error after the entries before it.",
 "all sequences of entries with distinct non-empty keys, any blank indent","All keys (any bytes, escapes) and values.",
 ["dsio/json.go: JSONWriter.valBytes, JSONReader.readKeyValuePair"])
prop("C11","JSON writer history: rejected entries",
 "For every history of WriteEntry calls an object writer rejects an entry iff its key is empty, its key was passed before with a non-empty key (also when that entry was rejected for its value), or its value contains a float that cannot be encoded; an array writer rejects only the last. If the first call was accepted, or none was, the closed document is a valid one with exactly the accepted entries in order. If the first call was rejected and a later one accepted, an object document starts with '{' and a comma and reading it fails at once, and an array document reads back with an extra null in front.",
 "all histories of WriteEntry calls followed by Close, array and object mode, compact and pretty","All interleavings of accepted and rejected writes.",
 ["dsio/json.go: JSONWriter.WriteEntry, valBytes, Close"])
prop("C12","JSON writer reports I/O failures",
 "If every WriteEntry and Close on a compact JSON writer returned nil then every byte of the document reached the sink, for every sink that may fail at any call after any number of bytes. With pretty printing the same holds except that the line break before the closing bracket may be missing, because that write in Close is unchecked.",
 "all sinks failing at any subset of calls, all entry sequences","Every failure point.",
 ["dsio/json.go: JSONWriter.WriteEntry, Close"])
prop("C13","Truncated JSON is never mistaken for a complete document",
 "Reading any proper prefix of a JSON document (any spacing), in particular of one produced by the JSON writer, never ends in a clean EOF: it gives the first entries of the document, at most one further entry, and then an error other than EOF, or panics if the prefix ends in a backslash and one more character.",
 "all documents, all cut points, all buffer sizes and chunkings","Every crash point of a writer.",
 ["dsio/json.go: JSONReader.ReadEntry, readArray, readObject"])
prop("C14","JSON string escaping is inverted exactly",
 "Decoding the JSON encoding of any valid UTF-8 string returns the same bytes; for arbitrary bytes each byte that does not belong to a well-formed sequence becomes U+FFFD; an escaped surrogate half is decoded on its own even if the other half follows, so escaped surrogate pairs are not combined.",
 "all byte strings","All code points, escapes and malformed sequences.",
 ["dsio/json.go: unquoteJSONString, readString"])
prop("C15","A nested array whose first element is out of range is silently replaced",
 "If a row of a JSON array is an array whose first element is an integer outside int64, the reader returns an empty array for the row, returns the remaining elements of the row as further top-level entries, and reports a clean EOF at the end of that row: the rest of the document is ignored and no error is reported.",
 "all documents of that shape: any rows before it, any elements after it, anything after the row","Needs the precise parser state after the swallowed error.",
 ["dsio/json.go: readArray"])
prop("C16","JSON reading terminates on every input",
 "On every byte input, for every buffer size and chunking, reading to the end returns after at most as many entries as the input has bytes and ends in an error (io.EOF at a clean end); the only other outcome is a panic, possible only when the input ends in a backslash and one more character.",
 "all byte inputs","All inputs, including adversarial ones.",
 ["dsio/json.go: JSONReader.ReadEntry, readValue"])
# ---- CBOR ----
prop("C17","CBOR write/read round trip",
 "Writing values with the CBOR writer and reading them back yields the same entries, for exactly the values whose integers are all >= -24 and < 2^63 and whose strings and keys are at most 4096 bytes; with any smaller integer or longer string the read returns the entries before it and then an error. Any supported encoding of the entries reads the same, whatever length the document declares.",
 "all value sequences (arrays) and all key/value sets (objects)","All nestings and magnitudes.",
 ["dsio/cbor.go: CBORWriter.Close, CBORReader.ReadEntry, readValue, getVarLenInt, readBytes"])
prop("C18","CBOR reading does not depend on how bytes arrive",
 "For every input and every chunking of the underlying reader the CBOR reader decodes the same entries with the same outcome. Entries without byte strings that the caller keeps stay as decoded while reading continues; byte strings do not, since they share the reader's buffer, and what they become depends on the chunking.",
 "all inputs and chunkings","All chunkings.",
 ["dsio/cbor.go: CBORReader.readValue, readBytes"])
prop("C19","Truncated CBOR is reported as a clean end",
 "For every document the CBOR writer produces and every cut point, reading the prefix never reports an error: it returns a prefix of the entries followed by EOF. Truncation is therefore undetectable for a caller of ReadAll. Cutting any other input changes nothing or ends it early with EOF.",
 "all written documents, all cut points","Every crash point.",
 ["dsio/cbor.go: CBORReader.ReadEntry, readBytes, dsio/dsio.go: ReadAllArray"])
prop("C20","CBOR writer history",
 "For every history of WriteEntry calls followed by Close the document contains exactly the accepted entries: for arrays all of them in order, for objects each non-empty key bound to its first value; a rejected entry leaves the writer unaffected.",
 "all histories","All interleavings.",
 ["dsio/cbor.go: CBORWriter.WriteEntry, Close"])
prop("C21","CBOR reading terminates on every input",
 "On every byte input every ReadEntry call terminates, and each successfully read entry consumes at least one byte.",
 "all inputs","Adversarial inputs with nested and indefinite lengths.",
 ["dsio/cbor.go: readValue, readArray, readMap"])
# ---- NDJSON ----
prop("C22","NDJSON write/read round trip",
 "Writing any sequence of JSON values with the NDJSON writer puts each on its own line (no encoded value contains a newline), and reading returns them in order with indexes 0,1,...: null, booleans, floats, text, arrays and objects come back equal, ill-formed UTF-8 comes back replaced, an integer comes back as the float of the same number, bytes come back as base64 text. A value nested deeper than the decoder's limit is written and is an error when read.",
 "all value sequences, all chunkings","All strings with embedded newlines and nested data.",
 ["dsio/ndjson.go: NDJSONWriter.WriteEntry, NDJSONReader.ReadEntry"])
prop("C23","NDJSON reads line by line and drops an unterminated last record",
 "On every byte stream, for every chunking and buffer size, the reader gives exactly one result per newline: the value if the line is one JSON text, otherwise an error other than EOF after which reading continues with the next line; indexes count the values only. Everything after the last newline is dropped and the reader reports a clean EOF.",
 "all streams, all chunkings","All streams.",
 ["dsio/ndjson.go: NDJSONReader.ReadEntry"])
prop("C65","NDJSON write results tell what arrived",
 "For every destination that fails in any way, a call to the NDJSON writer returns nil only if its whole line arrived, and on a destination that does not fail every value that can be encoded gets nil; after the destination failed once, every later call returns that same error and nothing more is sent; a value that cannot be encoded is refused without sending anything and without affecting later calls.",
 "all value sequences, all failure schedules","All failure points.",
 ["dsio/ndjson.go: NDJSONWriter.WriteEntry"])
# ---- CSV ----
prop("C24","CSV text round trip",
 "Writer and reader made from one structure: for every separator that is allowed, every sequence of rows, every buffer size of at least four bytes and every chunking, reading what was written returns the rows in order, except that in a cell CR LF and a lone CR may come back as LF, rows of no cell or one empty cell vanish, and (unless variadicFields is set) a row whose length is not that of the header or the first row is an error of its own, after which reading continues. Rows of one length without CR come back exactly. More generally the results of ReadEntry on any bytes are those of one unambiguous grammar of CSV and do not depend on the chunking. With a separator that is not allowed every read and every write of a row fails and nothing is written.",
 "all tables of text cells, all byte streams, all separators, all chunkings and buffer sizes","All cells with quotes, separators, newlines, leading spaces; all malformed inputs.",
 ["dsio/csv.go: CSVWriter.WriteEntry, CSVReader.ReadEntry, NewCSVReaderSize, NewCSVWriter", "dsio/replacecr/replacecr.go: Reader"])
prop("C25","CSV typed cells",
 "Reading casts each cell by its column's first type and leaves the cell as text exactly if the cast fails; values written to columns of their own type read back equal (JSON cells up to what JSON keeps); if a row has more cells than there are columns all cells are left as text. Nil, values of other types and lists or objects with NaN are not kept: they become empty cells or values of the column's type without any error. Creating a reader or writer panics exactly if the columns are valid and one has an empty type list.",
 "all rows, all column type lists","All texts and types.",
 ["dsio/csv.go: decode, encode, NewCSVReaderSize, NewCSVWriter", "vals/type.go: ParseInteger, ParseBoolean, ParseNumber"])
prop("C26","CSV header row is skipped exactly once",
 "With headerRow set, reading what was written returns exactly the data rows; without it every row is data. On any stream the header skipped is the first row that is read without error, and errors before it are returned. The claim fails for a single column with an empty title: the first data row is lost.",
 "all tables, all streams","All tables and titles.",
 ["dsio/csv.go: HasHeaderRow, NewCSVWriter, CSVReader.ReadEntry"])
prop("C27","CSV writer Close hides I/O errors",
 "Close on an uncompressed CSV writer returns nil for every sink, even when the sink rejected the bytes. What arrived is always a prefix of the full text; the first failing WriteEntry returns the sink's error and so do all later rows; without a failing sink everything arrives. That no reported error means that the rows arrived is false: a whole table can be lost without any error.",
 "all sinks, all entries","Every failure point.",
 ["dsio/csv.go: CSVWriter.Close, CSVWriter.WriteEntry"])
# ---- column names ----
prop("C28","Spreadsheet column letters",
 "ColIndexToLetters agrees with the standard spreadsheet numbering (0->A, 25->Z, 26->AA, ...) for every index below 17576, which covers the format's 16384 columns, and hence is injective there; index 17576 collides with 676.",
 "all column indexes","Whole index range.",
 ["dsio/xlsx.go: ColIndexToLetters, intToBase26, smooshBase26Slice, formatColumnName, largestLesserExponent"])
prop("C29","Abstract column names",
 "AbstractColumnName yields a non-empty lowercase word for every non-negative index, the standard spreadsheet name in lower case below 676, and distinct names on 0..701. Two indexes share a name exactly when their base 26 digits differ only by 0 against 1 before the last digit (676 and 702 are the first pair). Every negative index panics.",
 "all integers","Whole index range.",
 ["structure.go: AbstractColumnName, base26"])
# ---- identity reader ----
prop("C30","IdentityReader delivers exactly the data under every schedule",
 "Under every interleaving of the producer goroutine and the consumer, the entries received so far are a prefix of the source entries in order, each once, and EOF is returned only after all of them.",
 "all data slices, all interleavings, all consumer call sequences","Goroutine schedules.",
 ["dsio/identity.go: NewIdentityReader, iterateSlice, iterateMap, ReadEntry"])
prop("C31","IdentityReader can block for ever at the end",
 "For every data there is a schedule in which the consumer, having received all entries, blocks for ever in ReadEntry (and likewise in Close), because the end flag is set after the last send without closing the channel; no schedule can deadlock before the last entry is received.",
 "all data, all schedules","Needs a scheduler adversary.",
 ["dsio/identity.go: ReadEntry, Close, iterateSlice"])
# ---- dataset components ----
prop("C32","Component Assign: last non-empty value wins",
 "For every component type and every list of sources, each field after Assign is the last non-zero value among the sources, or the old value if none; nil sources are skipped; assigning to an already equal component changes nothing; Assign(a,b) equals Assign(a) then Assign(b).",
 "all components, all lists of (possibly nil) sources","All field combinations.",
 ["commit.go: Commit.Assign","meta.go: Meta.Assign","structure.go: Structure.Assign","transform.go: Transform.Assign","stats.go: Stats.Assign","readme.go: Readme.Assign","viz.go: Viz.Assign"])
prop("C33","Dataset.Assign field rules",
 "Dataset.Assign gives every component the component-wise Assign of the sources and every assigned scalar its last non-empty value, except that ID keeps its first non-empty value and NumVersions and Qri are never taken from a source.",
 "all datasets, all lists of sources","All field combinations.",
 ["dataset.go: Dataset.Assign"])
prop("C34","Dataset.Assign shares components with its sources",
 "When the receiver lacks a component, Assign stores the source's own component object, so a later Assign into the receiver changes that source; when the receiver already has all components no source object is ever modified.",
 "all heaps of datasets","Aliasing over histories of calls.",
 ["dataset.go: Dataset.Assign"])
prop("C35","Dropping transient and derived values touches exactly the documented fields",
 "DropTransientValues and DropDerivedValues reset exactly their listed fields on every component and leave all other fields unchanged; both are idempotent and commute.",
 "all components and datasets","All field combinations.",
 ["dataset.go: DropTransientValues, DropDerivedValues","commit.go","meta.go","structure.go","transform.go","stats.go","readme.go","viz.go"])
prop("C36","When a component is written as a bare path",
 "A component is encoded as a bare path string exactly when its path is non-empty and it is empty otherwise; for Structure the actual rule only looks at encoding and schema, so a structure with a path and, say, a format loses that format; for Meta arbitrary metadata is ignored by the emptiness test and lost.",
 "all components","All field combinations.",
 ["commit.go: MarshalJSON","meta.go: MarshalJSON","structure.go: MarshalJSON","transform.go","stats.go","readme.go","viz.go","dataset.go: MarshalJSON"])
prop("C37","Component JSON round trip",
 "Decoding the JSON encoding of a component or dataset returns the same component up to exactly these losses: a bare path keeps only the path; otherwise the default kind is filled in, open files and secrets are dropped, empty maps, slices and byte strings become nil, readme and viz objects lose their path, metadata always gets kind md:0 and finds its keywords repeated among its arbitrary members. For metadata this needs arbitrary member names that do not match a metadata member up to case and are not data, image, keyword, length or timestamp; others are lost or make decoding fail. Encoding fails only for commit times outside years 0-9999.",
 "all components","All field combinations.",
 ["commit.go: MarshalJSON, UnmarshalJSON","meta.go","structure.go","transform.go","stats.go","readme.go","viz.go","dataset.go"])
prop("C38","Re-encoding is stable",
 "Encoding, decoding and encoding again gives the same document, except exactly for structures that have a path, no encoding and an empty non-nil schema and for transforms that have a path and otherwise only empty maps, empty steps or secrets (and datasets holding such components or empty non-nil body bytes): those turn into a bare path. Encoding fills in kinds of the receiver; encoding again gives the same document and changes nothing more.",
 "all components","All components.",
 ["commit.go","stats.go","structure.go","transform.go","readme.go","viz.go","hash.go: JSONHash"])
prop("C39","Key order of encoded documents",
 "Encoded Meta, Readme, Viz and Stats documents have keys in strictly ascending order for every value; contrary to the documented alpha-key rule Commit objects are ordered exactly when they have no run id, Structure objects when not both errCount and entries are written, Transform objects when they have no text or nothing that follows it, Dataset objects when there is no readme, no version count after a path, peername, previous path or profile, and not both structure and stats.",
 "all components","All field combinations.",
 ["dataset.go: package doc, Dataset","commit.go: Commit","structure.go: Structure","transform.go: Transform"])
prop("C40","Secrets never reach encoded documents",
 "For every transform, the encoded object is the same whatever its secrets are, has no secrets key and decodes to a transform without secrets; only the presence of a secrets map can show, by keeping the transform from being written as a bare path.",
 "all transforms","All secrets.",
 ["transform.go: MarshalJSON, MarshalJSONObject"])
prop("C41","Signing bytes identify what is signed",
 "SigningBytes depends only on ID, body path, commit time in whole seconds and component paths; two datasets whose these values contain no newline have equal signing bytes iff all of these are equal; with newlines allowed two different datasets can have equal signing bytes; sub-second time is not covered.",
 "all pairs of datasets","Injectivity over all pairs.",
 ["dataset.go: SigningBytes","kind.go: ComponentTypePrefix"])
prop("C42","PathMap lists exactly the present components",
 "PathMap has an entry for a component iff the component is present (for body and dataset: has a path) and is not ignored; its value is that component's path; a nil dataset gives an empty map.",
 "all datasets and ignore lists","All combinations.",
 ["dataset.go: PathMap"])
prop("C43","Kind strings",
 "A kind that decodes without error has at least four bytes, so Type and Version never panic on it and together with the byte between them rebuild the kind; ComponentTypePrefix is injective in its text argument.",
 "all strings","All strings.",
 ["kind.go: Kind.Valid, Type, Version, UnmarshalJSON, ComponentTypePrefix"])
prop("C44","Data format names",
 "ParseDataFormatString inverts String for every known format, accepts exactly the documented names, and never maps two formats to one name; JSON decoding inverts JSON encoding; the unknown format cannot be encoded.",
 "all strings, all formats","All strings.",
 ["data_format.go: ParseDataFormatString, String, MarshalJSON, UnmarshalJSON"])
prop("C45","Format configuration maps",
 "Decoding the map form of CSV and XLSX options returns the same options, except that CSV options with a separator cannot be decoded from their own map form; NewCSVOptions accepts exactly well-typed maps.",
 "all option values and all maps","All maps.",
 ["data_format_config.go: NewCSVOptions, CSVOptions.Map, NewXLSXOptions, XLSXOptions.Map"])
prop("C46","File name and structure agree",
 "FormatFromFilename applied to any base name extended by Structure.AddFileFormatExtensions returns the structure's format and compression for every supported format name and compression name, for every base name.",
 "all base names, all supported formats and compressions","All base names with dots and slashes.",
 ["detect/detect.go: FormatFromFilename","structure.go: AddFileFormatExtensions, BodyFilename","compression/compression.go: ParseFormat"])
prop("C47","Step files round trip",
 "Write then Read returns the same scripts iff the list is non-empty and no script followed by the separator contains an earlier separator occurrence; Read then Write reproduces the file byte for byte for every file.",
 "all script lists, all files","All overlaps of scripts with the separator.",
 ["stepfile/stepfile.go: Read, Write"])
prop("C48","Typed comparison is a total preorder",
 "CompareTypeBytes orders strings by bytes and texts of 64-bit integers by value, with empty values first, and on these is a total preorder: antisymmetric and transitive; texts that are no such integers, and all other types except number, give an error; numbers are ordered by value as long as no NaN is among them (with NaN both orders report less). Type names round trip through TypeFromString except the name of the bytes type.",
 "all pairs and triples of byte strings","All triples.",
 ["vals/compare.go: CompareTypeBytes, CompareIntegerBytes","vals/type.go: TypeFromString, String, ParseInteger"])
prop("C66","Type inference of texts",
 "For every byte string ParseType gives exactly one type: boolean for the boolean words, null for null, object or array if the first byte other than space and line feed is { or [, integer or number if that byte is a minus sign, a digit or the letter e and the text parses as a float (integer exactly if it is a signed numeral), and string for everything else.",
 "all byte strings","All byte strings.",
 ["vals/type.go: ParseType, ParseBoolean, ParseInteger, IsBoolean, IsInteger"])
prop("C49","Column statistics describe exactly the values of the column",
 "For every entry reader and every sequence of rows it yields, calculating statistics never panics; a reader failure gives an error naming the row. The report has one row per key (ascending, with key and type) for objects, one per index for arrays, one for scalar bodies, none for an empty body, and nested objects and arrays likewise. The kind of a column is that of its first value, and only values of that kind count: count, trueCount, falseCount, minLength and maxLength are exactly those of these values, min is the least of them and 2^63, max the greatest of them and -2^63, mean their float64 sum in order divided by their number, histogram and median those of a 32-bin sketch of them (so exact for at most 32 different numbers), frequencies keep every count of the top-k library under a label of at most 40 bytes of the text. It does not hold that min is one of the values (all values beyond 2^63), that a column starting with null counts its later values, that the statistics of a nested field called key or type survive, or that closing twice changes nothing.",
 "all readers, all sequences of rows of any nesting","All row sequences, nestings and orders.",
 ["dsstats/stats.go: CalculateFromEntryReader, ToMap, Accumulator.WriteEntry, Close, arrayAcc, objectAcc, numericAcc, stringAcc, boolAcc, nullAcc"])
prop("C50","Histogram sketch invariants",
 "For every n >= 1 and every sequence of values with positive counts added to a new sketch: Read gives at most n frequencies and one bin more, the absolute frequencies and Count add up to the number of values added whatever the rounding, Min and Max are the least and greatest value if all are finite float64, and with at most n different values (none NaN) the bins are exactly those values in ascending order with their exact frequencies. Without rounding the bins are strictly ascending, lie between Min and Max and keep the sum of the values; each merge joins the leftmost closest pair; Sum lies between 0 and the count and, with at most n different values, Sum(p) is the number of values up to p and Quantile(p) the first value whose middle rank exceeds p times the count. Quantile panics exactly for p outside 0..1 or an empty sketch, New for n = 0. It does not hold that float64 bins stay between Min and Max or finite, that frequencies are positive after merging, that Sum is monotone, that the median is the middle value, that Merge keeps the extremes, or that decoding restores the capacity and count.",
 "all value sequences, all n >= 1","Insertion orders, merges and roundings are unbounded.",
 ["dsstats/histosketch/histosketch.go: New, Add, AddMany, Merge, Sum, Quantile, Read, MarshalBinary, UnmarshalBinary"])
prop("C51","Structure detection only fills gaps and preserves the body",
 "detect.Structure on a dataset whose structure has a format, a schema and, for csv and xlsx, a format config reads and changes nothing; without such a structure and without a body it fails. Otherwise it reads the body: on success every structure field that was set is kept, format, compression, schema and (if the formats agree) format config are filled from the body's name and bytes, nothing else of the dataset changes, and the body file yields the original bytes and final error for every sequence of read sizes; a second call changes nothing, except for xlsx bodies and for a csv structure whose body has another extension. On error the dataset is unchanged but a prefix of the body may be gone. The schema is the one of the body name's format even if the structure says another.",
 "all datasets, names, bodies, chunkings and read sizes","All bodies and buffer read-aheads.",
 ["detect/detect.go: Structure, FromReader, needsFormatConfig"])
prop("C52","JSON/CBOR top level detection",
 "JSONSchema never answers wrongly; it answers array/object according to the first non-blank byte, and an error otherwise, if the source ends with EOF and the first read fills its buffer or has a non-blank byte; a short blank first read makes it reject a valid document. CBORSchema decides by the major type of the first byte; it always reports 1 byte read, although more are taken.",
 "all inputs and chunkings","All chunkings.",
 ["detect/json.go: JSONSchema","detect/cbor.go: CBORSchema"])
prop("C53","CSV detection reports what the rows say",
 "CSVSchema reads the rows of the text as a lenient, blank-trimming CSV reader would, up to 2001 rows as wide as the first. It guesses a header exactly if every trimmed cell of the first row is neither empty, a number nor true/false; the schema has one column per cell of the first row, titled by the header cell or field_i, whose type is the smallest most frequent type among the sampled cells; variadicFields is set exactly if a sampled row has another width. A source that does not fail and has more than line breaks always gets a schema. The result does not depend on how the source is chunked, and n is the number of bytes taken.",
 "all texts, sources and chunkings","All texts, tallies and chunkings.",
 ["detect/determineFields.go: CSVSchema, getKeys, possibleCsvHeaderRow"])
prop("C54","Tabular schema columns",
 "ColumnsFromJSONSchema returns, for every schema of type array with nested items, one column per item in order with title, types, description and remaining members as the item says, default title col_i and default type string, and notes exactly the missing titles and types, all independent of the iteration order of maps; any other schema is an error. ValidMachineTitles accepts iff titles are all identifiers and pairwise distinct, and names exactly the offending columns. Type lists of at least one type survive encoding and decoding.",
 "all schemas","All schemas.",
 ["tabular/tabular.go: ColumnsFromJSONSchema, ValidMachineTitles, ColType.MarshalJSON, ColType.UnmarshalJSON"])
prop("C55","Validation rules",
 "validate.Dataset accepts exactly datasets with a commit whose title has at most 100 bytes and a nil structure or one with a known format and a schema; ValidName accepts exactly 1..144 character identifiers starting with a letter.",
 "all datasets and names","All inputs.",
 ["validate/dataset.go: Dataset, Commit, Structure, Schema","validate/validate.go: ValidName"])
prop("C56","Batched validation sees every entry exactly once",
 "EntryReader cuts the entries it reads, in order, into batches of 5000 (the last may be shorter); every entry is in exactly one batch. Each batch is checked as a JSON document of its own, as its entries read back from JSON, and the result is the errors of the batches in order. It succeeds only if the reader ended with EOF and every batch could be written: no value without JSON and, for an object, distinct non-empty keys within the batch; otherwise it returns an error. Checking the whole body as one document is something else: an empty body is never checked, limits on the number of entries are not seen past 5000, and a key repeated in a later batch is not noticed.",
 "all readers, entry counts and schemas","All lengths around batch boundaries.",
 ["validate/data.go: EntryReader, flushBatch","dsio/entry_buffer.go: NewEntryBuffer, WriteEntry, Close","structure.go: JSONSchema"])
prop("C57","Preview keeps the files readable",
 "After a successful preview.Create the body file and the readme script file still deliver all their original bytes (and end with the same error) and keep their paths; the readme text is the whole readme if it is shorter than 997 bytes, otherwise its first 997 bytes and an ellipsis; the body is a JSON text of the leading entries of the body, at most 100, ending early only before an entry that cannot be read or written, which is not reported; nothing else of the dataset changes. A nil or empty dataset and a readme that breaks off within 997 bytes are errors, after which the readme has lost bytes; a body without a structure panics.",
 "all datasets, files, ways of splitting reads, and entry readers that use the file through Read","All file lengths, read sizes and entry readers.",
 ["preview/preview.go: Create","dsio/dsio.go: ConvertFile"])
prop("C58","Content hashes are injective encodings",
 "HashBytes never fails: it returns the base58 text of the bytes 18, 32 and the FIPS 180-4 sha-256 digest of the data. Base58 texts are the exact base-58 notation with one leading 1 per leading zero byte, so two byte strings get the same hash iff their digests are equal. A hash is always 46 characters of the base58 alphabet starting with Qm. Two values have the same JSONHash only if the digests of their JSON encodings are equal.",
 "all byte strings","All byte strings.",
 ["hash.go: HashBytes, JSONHash"])
prop("C59","Generated rows conform to the schema",
 "Every row of a TabularGenerator has one value per column, of the column's first type, and consecutive indexes; generated strings are alphanumeric and shorter than the maximum (64, or the configured one); generated booleans are always true; a column of an unknown type gets a scalar of a random type. A column without a type makes ReadEntry panic. The generator never ends by itself; behind a PagedReader it gives exactly as many rows as asked for. The random-type option has no effect.",
 "all schemas and all random streams","All random streams.",
 ["generate/tabular.go: ReadEntry","generate/value.go: Type, String, Bool"])
prop("C60","Meta.Set changes one field",
 "Meta.Set on a recognised key (any case, surrounding blanks) changes only that field; on any other key it only binds that key in the arbitrary metadata; on a type error the addressed string field is cleared, not preserved.",
 "all metas, keys and values","All keys and values.",
 ["meta.go: Set, SetArbitrary, strVal, strSliceVal"])
prop("C61","Opening bodies and scripts",
 "OpenBodyFile fails on inline bodies, prefers inline bytes, then the path through the resolver; Open/InlineScriptFile prefer inline text; after a successful inline the text is the file content and the script path is empty; any failure leaves text and path unchanged. In-memory files have the name of the body path (body if there is none), readme.md, template.html or transform.star. Rendered files are opened by path only, and without a resolver a path is an error that leaves everything as it was.",
 "all datasets, resolvers and failures","All resolvers.",
 ["dataset.go: OpenBodyFile","transform.go: OpenScriptFile, InlineScriptFile","readme.go","viz.go"])
prop("C62","Diff summaries follow the priority order",
 "MapDiffsToString returns the summary of the first component in the order structure, data, transform, meta, viz that has a non-empty summary, independent of map order; an empty string iff none has one. DiffDatasets compares a structure if either side has one; data only if it is handed over; meta unless both are stored at the same path (two or more characters) or, without two such paths, both are empty; transform and viz unless stored at the same path, ignoring the script path of a transform if both have one. Missing components count as empty ones. A dataset does not differ from itself. Not seen: another body path, and metas that differ only in the user's own fields.",
 "all datasets, diff maps, JSON comparisons and component encodings","All maps and datasets.",
 ["dsdiff/dsdiff.go: MapDiffsToString, SummarizeToString, DiffDatasets, DiffStructure, DiffData, DiffTransform, DiffMeta, DiffViz"])
prop("C63","ShallowCompare is an equivalence that ignores only location and files",
 "ShallowCompare on readme, viz and transform is an equivalence relation; two components are related iff they agree on every exported field except Path.",
 "all pairs and triples","All pairs.",
 ["readme.go: ShallowCompare","viz.go: ShallowCompare","transform.go: ShallowCompare"])
prop("C64","Rendering helpers",
 "printByteInfo picks the largest unit not exceeding the size, with a floor quotient and a plural s iff the quotient is not 1. isType answers by kind for string, object, array, boolean, number and is an error for other names. bodyEntries returns exactly the requested window if offset and limit are not negative and otherwise everything, as a list or as a map of last values; a reading error is reported unless the window was full before it. On success the body file then delivers what the reader consumed: all of it if the reader reached the end, less if a window stopped early; on an error it delivers what was left. Render refuses datasets without an html viz, and leaves a script that could be read readable again whatever the template does.",
 "all sizes, values, bodies, windows, entry readers and templates","All sizes, windows and readers.",
 ["dsviz/render.go: Render, renderHTML, printByteInfo, isType, bodyEntries, readEntries"])
prop("C67","A table without a schema gets one that describes it",
 "TabularSchemaFromTabularData on an array whose first entry is an array returns a schema from which ColumnsFromJSONSchema gets one column per cell of that row without problems, titled col_0, col_1, ..., valid as machine titles, with the type of the cell. It fails exactly on objects, empty arrays and arrays whose first entry is not an array; a scalar yields an empty schema that describes no table.",
 "all values and map iteration orders","All tables.",
 ["detect/detect.go: TabularSchemaFromTabularData, goDataType","tabular/tabular.go: ColumnsFromJSONSchema, ValidMachineTitles"])
prop("C68","Row length check of CSV",
 "CheckCsvRowLengths returns no error exactly if the text, read with strict quotes and white space before cells left out, consists of at least one row and all rows have the same number of cells; any unbalanced or stray quote, failing source, empty text or row of another width is an error. The outcome does not depend on how the source delivers its bytes.",
 "all sources and buffer sizes","All texts and deliveries.",
 ["validate/csv.go: CheckCsvRowLengths"])
prop("C69","Spreadsheets hold the written rows",
 "Writing entries to a spreadsheet puts the i-th value of the k-th accepted entry into column i of row k of the configured sheet and nothing else, for rows of up to 17576 cells; an entry is accepted iff it is a list all of whose values have a text (nil is an empty one; bytes and values without JSON have none), and a refused entry takes no row. Reading the file back yields the rows in order, numbered from 0, each cell cast by its column's first type as in CSV, then the end; values of their columns' types come back. Close reports a failing destination. Compression is refused, an unusable sheet name is refused only by the writer, a column without types panics. Null does not come back; in wider rows a later cell replaces an earlier one.",
 "all entries, schemas, configurations, destinations","All tables and write histories.",
 ["dsio/xlsx.go: NewXLSXReader, ReadEntry, decode, NewXLSXWriter, WriteEntry, axis, Close, encodeStrings"])
prop("C70","Conversions between formats keep the entries, and where they do not",
 "ConvertFile from a JSON array to CBOR writes exactly the entries that offset and limit (or all) choose, for every configuration, compression and buffer; from a written CBOR array to JSON it writes the JSON of the chosen values before the first one that CBOR cannot be read back with (an integer below -24, a string longer than 4096 bytes). There and back gives the chosen values up to that point. A JSON object becomes the CBOR map of the chosen pairs before the first empty or repeated key, a CBOR map the JSON object of its pairs in key order. A JSON array or object becomes one line per value, without the keys; lines become the JSON array of their values before the first line that is not JSON. A JSON array that was cut short converts successfully to the values before the cut and at most one more. Conversion never succeeds with an unknown format, an unknown compression, a missing schema (JSON, CBOR, NDJSON), or lines read under a schema that is not an array. So success does not mean that everything was converted.",
 "all documents, structures, compressions without loss, windows, sources and deliveries","All documents and pairs of formats.",
 ["dsio/dsio.go: ConvertFile, NewEntryReader, NewEntryWriter, maybeWrapDecompressor, maybeWrapCompressor","dsio/json.go: NewJSONReader, NewJSONWriter, NewJSONPrettyWriter","dsio/cbor.go: NewCBORReader, NewCBORWriter","dsio/ndjson.go: NewNDJSONReader, NewNDJSONWriter"])
prop("C71","Texts of a type stand for values, and back",
 "Type.Parse returns a value exactly for the texts that stand for one: any text as a string, a decimal integer within int64 as an integer, the twelve words of strconv.ParseBool as a boolean, what ParseFloat takes as a number, and as an array or an object any JSON array or object; types null, bytes and unknown parse nothing. It never panics. ValueToString and ValueToBytes give the same bytes and answer exactly for a string, int, float64 or bool as that type, and for anything with JSON as an array or object. The text of a value parses to that value again (an int as an int64); a parsed value written and parsed again is the same, except that ValueToString refuses every parsed integer. On JSON documents JSONArrayOrObject tells what the document is. The JSON of a type reads back exactly for the seven named types; UnmarshalJSON takes exactly JSON strings with such a name. Every integer text is a float text.",
 "all types, texts, values and nesting limits","All texts and values.",
 ["vals/type.go: Parse, ParseString, ParseNumber, ParseInteger, ParseBoolean, ParseJSON, JSONArrayOrObject, ValueToString, ValueToBytes, MarshalJSON, UnmarshalJSON, IsFloat"])
prop("C72","JSON texts become exactly their Values",
 "UnmarshalJSON returns a Value exactly for JSON documents whose numbers fit (integers in 64 bits, all numbers in a float32): the array or object of the document, or a pointer to its scalar; numbers written with digits only are Integers, all others Numbers; of a repeated key the last value counts. It never panics. Following Index and MapIndex from the Value leads exactly to the Values of the parts of the document. Printing a Value and reading the text gives the Value back, if strings are UTF-8 and no Number prints like an integer. A Number such as 3.0 comes back as an Integer. Only spaces and line breaks may precede an array or object; blanks around a number or boolean are an error, and null with blanks around it is an empty string.",
 "all texts, Values, paths and nesting limits","All texts.",
 ["vals/coding.go: UnmarshalJSON, unmarshalObject, unmarshalArray","vals/value.go: MarshalJSON"])
prop("C73","Decoded values become exactly their Values",
 "ConvertDecoded returns a Value exactly for data built of nil, integers, float64, strings, booleans, slices, and maps with string keys; anything else, at any depth, is an error, never a panic. Integers keep their value modulo 2^64 as signed 64-bit integers, so uint64 values from 2^63 on turn negative; arrays and objects come as pointers at every level. For a JSON array or object, decoding it and converting the result gives the data that UnmarshalJSON gives, with floats for integers; but Equal says that the two results differ.",
 "all decoded values and documents","All nested values.",
 ["vals/coding.go: ConvertDecoded"])
prop("C74","The type of a Value tells its methods, and Equal compares content",
 "Len answers exactly on arrays, Index exactly within the length, Keys and MapIndex exactly on objects (and MapIndex finds exactly the Keys), Boolean, Integer and Number exactly on values of those types (Number also on Integers); otherwise they panic; IsNull says yes exactly to nulls. They return the content. String returns the text of a string and for all others a description in angle brackets: the type, with the value of a boolean and the number of keys of an object; a string can look like such a description. This holds through pointers and ObjectValues. Equal never panics; it says yes exactly to scalars of one type with the same content and to arrays or objects built the same way, pointers included. It is symmetric and transitive if equality of floats is, and a Value equals itself exactly if it holds no NaN. An Integer never equals a Number.",
 "all Values","All nested values.",
 ["vals/value.go","vals/compare.go: Equal","vals/object_value.go"])
prop("C75","What dataset comparisons look at",
 "CompareDatasets changes neither dataset, nor their components, nor anything else. Without options it returns no difference exactly if all exported fields of the datasets and their components agree, except Qri and NumVersions of the dataset, which it never sees; a missing dataset counts as an empty one; arbitrary metadata does not count. With OptDropTransientValues the body, name, path, peername and profile of the expected dataset do not count, but the other dataset must have none of them: a named dataset then differs from itself, and the order of the arguments matters. CompareCommits, CompareMetas and CompareStructures compare all exported fields, with the option all but the path, which the second component must not have.",
 "all datasets, components and sharing between them","All field values and sharing.",
 ["dstest/compare.go: CompareDatasets, CompareCommits, CompareMetas, CompareStructures, OptDropTransientValues"])
prop("C76","Durations of periodicities",
 "AccuralDuration is positive exactly for nineteen periodicity texts and zero for every other text. A recognised whole number of days, weeks, months of 30 days or years of 365 days lasts that many units, except that 2 months last 300 days, 3 months a seventh and 4 months a quarter of a year; a third of a week or month and half a month are exact, 3.5 days count as 4. So a longer period may have a shorter duration.",
 "all texts","All texts.",
 ["meta.go: AccuralDuration"])
prop("C77","Conversions from and to tables of comma-separated values",
 "ConvertFile from a JSON array to CSV writes, with the separator of the structure, the titles if asked for, and then one row of cell texts for every chosen value before the first that is no array. From a CSV text that is a table it writes the JSON or CBOR array of the chosen rows before the first one whose number of cells differs, each cell as the value its column's type makes of it; empty rows are left out and the titles are no data. Both report success when they stop early. From JSON to CSV and back, rows with one cell per column, each of its column's own type, without carriage returns and not empty, come back. Null, texts that read as another type, short and empty rows do not.",
 "all documents and tables, structures with typed columns, separators that encoding/csv allows, compressions without loss, windows, sources and deliveries","All documents, tables and structures.",
 ["dsio/dsio.go: ConvertFile, NewEntryReader, NewEntryWriter","dsio/csv.go: NewCSVReader, NewCSVWriter, ReadEntry, WriteEntry, Close"])
prop("C78","An entry buffer gives back what was written to it",
 "For every structure that is neither compressed nor a workbook, writing any entries to an EntryBuffer, closing it and then reading it answers what a writer of that structure, its Close, and then a reader of what it wrote answer; until the first read Bytes is all that was written. Under any other order of calls: a buffer of JSON lines is a first-in first-out queue, answers EOF exactly while it is empty, can be filled again, and Close changes nothing. A buffer of a JSON array is such a queue too, but while it is empty and not closed it answers an error other than EOF, and EOF just once after it is closed. A buffer of a CBOR array answers EOF to every read before Close, then gives all entries up to the first that cannot be read back. No buffer is made of a workbook, or of a compression whose empty text is an error.",
 "all structures, entries, orders of calls","All histories of calls.",
 ["dsio/entry_buffer.go"])
prop("C79","Statistics are about the values of a body, not its format",
 "Calculate gives the same statistics for any two bodies that hold the same values in the same order, be they JSON or CBOR arrays or objects, JSON lines or tables, however compressed, or workbooks; an integer counts as its float at any depth. They are the statistics C49 describes, of all the values. Keys of an object body do not count. A body with a CBOR value that cannot be read, a line that is no JSON, or a row with another number of cells has no statistics but an error, and so has a JSON body that was cut short, unless the cut is just behind an escape. Converting a JSON array to CBOR keeps the statistics. Without a body, a structure, a schema, or a known format there is an error. A CBOR body cut between entries and a last line without a line feed are not noticed: the statistics are of the entries before.",
 "all bodies, structures, formats, compressions without loss, sources and deliveries","All bodies and pairs of formats.",
 ["dsstats/stats.go: Calculate, CalculateFromEntryReader","dsio/dsio.go: NewEntryReader, EachEntry"])
prop("C80","Conversions between any two formats keep what both can store",
 "ConvertFile from a body in any format (JSON or CBOR array or object, JSON lines, table of comma-separated values, workbook) to an array structure of any format succeeds if that format can store the chosen values, and every reader of the result, however it is delivered, gets the values as stored: JSON replaces ill-formed text and makes text of byte slices, JSON lines make floats of integers, CBOR stores what its reader can read, tables and workbooks store rows of cells that each have their column's type. So any chain of conversions whose steps can store what the one before gave comes to an end, every body it ends with holds the values of its last step, and two chains that change no value end with bodies that have the same statistics. Other values change: a workbook makes text of null and a boolean of the text true.",
 "all bodies, structures, pairs of formats and chains of any length, windows in a single conversion, compressions without loss, sources and deliveries","All pairs of formats, and chains of every length.",
 ["dsio/dsio.go: ConvertFile, NewEntryReader, NewEntryWriter","dsio/json.go","dsio/cbor.go","dsio/ndjson.go","dsio/csv.go","dsio/xlsx.go","dsstats/stats.go: Calculate"])
prop("C81","Bodies whose structure was detected can be read, and which cannot",
 "For a dataset that says nothing about its structure, detection followed by reading the same bytes gives the values of any JSON array or object, CBOR array or map, or lines of JSON, then the end. Detection succeeds for every such document (JSON: if the first read gives 100 bytes or more than blanks). For a CSV table of cells without CR and without white space in front, with a row that is no empty line, detection succeeds; the first row is taken as titles exactly if its cells look like names; each column has the commonest type of the cells looked at; all rows are read with these types if all have as many cells as the first or a row looked at does not, and otherwise reading fails. Compressed lines can be read; compressed JSON and CBOR are refused with the dataset unchanged. A spreadsheet can never be read with its detected structure. A first row of texts is lost as titles, and cells with a space in front are found to be integers but read as texts.",
 "all documents, tables, names, sources, deliveries and buffers","All documents and tables.",
 ["detect/detect.go: Structure, FromReader","detect/determineFields.go: Schema, CSVSchema, JSONSchema, CBORSchema, NDJSONSchema, XLSXSchema","dsio/dsio.go: NewEntryReader","dsio/json.go: NewJSONReader","dsio/csv.go: NewCSVReader","dsio/cbor.go: NewCBORReader","dsio/ndjson.go: NewNDJSONReader","dsio/xlsx.go: NewXLSXReader"])

prop("C82","Datasets survive being saved as JSON text",
 "The JSON bytes that a dataset or a component is marshalled to decode to the same value again, up to the differences C37 allows, however the text is re-indented or its strings are escaped. This holds for texts that are UTF-8, counts within 64 bits, times of the years 0 to 9999, and numbers in bodies, schemas and other free-form parts that float64 holds. Times are read from exactly the RFC 3339 texts that name them, in any zone, and written to the nanosecond. Datasets with equal JSON texts are written as equal documents, and so are structures with equal hashes unless SHA-256 collides. Bytes that are no JSON are refused, and so are counts that are no 64-bit integers, timestamps that are no RFC 3339 texts and body bytes that are no base 64. Unmarshalling anything reports no error exactly for a component and for bytes that decode. Not so for texts that are not UTF-8, which come back altered, and for free-form numbers beyond float64, which come back rounded while counts are exact.",
 "all datasets, components, documents, JSON texts of them and nesting limits","All datasets and all texts of them.",
 ["commit.go: MarshalJSON, UnmarshalJSON, UnmarshalCommit","structure.go: MarshalJSON, UnmarshalJSON, Hash, UnmarshalStructure","transform.go: MarshalJSON, UnmarshalJSON","meta.go: MarshalJSON, UnmarshalJSON","dataset.go: MarshalJSON, UnmarshalJSON, UnmarshalDataset","readme.go: MarshalJSON, UnmarshalJSON","viz.go: MarshalJSON, UnmarshalJSON","stats.go: MarshalJSON, UnmarshalJSON"])

prop("C83","Validation of bodies does not depend on their format",
 "Validating a body of arrays against its schema finds what the schema finds in the body's values: in one document of all values if there are at most 5000 of them, else in documents of 5000 values each, in order, and nothing in a body without entries. So JSON, newline delimited JSON, CBOR, CSV and workbook bodies with the same values, compressed or not, read in pieces of any size, get the same errors, and converting a body through any formats that can store its values does not change them. An object body is checked as objects of 5000 of its pairs each. A body with a value, line or row that cannot be read, a JSON body that was cut short, a value without JSON such as a float that is no number, a body in no known format or that cannot be decompressed, and a schema that does not compile or is no schema of arrays or objects are errors, not verdicts. Not so for CBOR that was cut behind an entry and for a last line without its end: these are validated as if the missing entries were not there.",
 "all bodies, structures, schemas, checks and conversions","All bodies in all formats and all schemas.",
 ["validate/data.go: EntryReader, flushBatch","dsio/dsio.go: NewEntryReader","structure.go: JSONSchema","dsio/dsio.go: ConvertFile"])

prop("C84","Test cases are what their directories hold, and golden files",
 "A directory loads as a test case exactly if it has at least one of an input dataset, a body, a transform, a template, a readme and an expected dataset, and every one of them that can be opened can be read, the datasets being required to decode; otherwise there is an error. The case has the contents and names of these files, the body being the first that opens in the order cbor, json, csv, xlsx, ndjson. Its input dataset is the one of the file, or an empty one, with the name of the directory and with handles to just these files; nothing else is changed. LoadTestCases gives the sub-directories that load, under their names, and leaves out the others. BodyFilepath is the body that is read, except that it also names a file that cannot be opened. A golden test passes exactly if the file decodes to a dataset that agrees in every exported field but Qri and NumVersions. The file is changed only by a mismatch with updates switched on, and then it is an indented text of the dataset found. The next run with that dataset passes exactly if its components have kinds (or are bare paths), meta the kind md:0, readme and viz no path, and there are no empty maps or lists and no secrets: for others the golden file never matches.",
 "all directories, names, datasets, golden files and runs","All directories and datasets.",
 ["dstest/dstest.go: NewTestCaseFromDir, LoadTestCases, BodyFilepath, ReadBodyData, ReadDataset","dstest/golden.go: CompareGoldenDatasetAndUpdateIfEnvVarSet, LoadGoldenFile, UpdateGoldenFileIfEnvVarSet","dstest/compare.go: CompareDatasets"])

prop("C85","What pages and previews show of a body does not depend on its format",
 "In a template bodyEntries(offset, limit) is the list of the body's values from offset on, at most limit of them, and all of them if one of the two numbers is negative, as for allBodyEntries; it is the same for JSON, CBOR, JSON lines, CSV and workbook bodies with the same values, compressed or not, read in pieces of any size. Of an object body it is the map from each key to its last value among the pairs in the window. If all is asked for, a body with a value, line or row that cannot be read, or that is JSON cut short, is an error. The preview of a body of arrays is a JSON text of its first hundred values, and bodies that agree in these have the same preview, byte for byte. Not so for errors: a preview of a body that cannot be read, and a page whose window is full before, are those of the values before the error, without one.",
 "all bodies, structures, formats, windows, sources and deliveries","All bodies in all formats and all windows.",
 ["dsviz/render.go: bodyEntries, allBodyEntriesFunc, bodyEntriesFunc, readEntries","preview/preview.go: Create","dsio/dsio.go: NewEntryReader, ConvertFile","dsio/streams.go: PagedReader"])

prop("C86","Empty components and references, and merging them",
 "A component is empty exactly if nothing but its path and kind is set; open files do not count, nor the arbitrary members of meta, nor the version count of a dataset. The result of Assign is empty exactly if the receiver and every source are. Empty sources change nothing but path and kind, except that scripts can bring an open script file, datasets an open body file (and no kind), and meta its arbitrary members, although it counts as empty. A new reference (NewCommitRef, ...) is empty, is written as the bare path, and that path is read back as the reference; only NewStructureRef has a kind, which the read one has not. Merging a reference with a path sets the path, and for structures the kind, and nothing else. A structure that is written as a bare path need not be empty.",
 "all components, datasets, lists of sources and paths","All values of all fields.",
 ["commit.go: NewCommitRef, Commit.IsEmpty, Assign","meta.go: NewMetaRef, Meta.IsEmpty, Assign","structure.go: NewStructureRef, Structure.IsEmpty, Assign","stats.go: NewStatsRef, Stats.IsEmpty, Assign","transform.go: NewTransformRef, Transform.IsEmpty, Assign","readme.go: NewReadmeRef, Readme.IsEmpty, Assign","viz.go: NewVizRef, Viz.IsEmpty, Assign","dataset.go: NewDatasetRef, Dataset.IsEmpty, Assign"])

prop("C87","Formats that require a tabular schema",
 "RequiresTabularSchema is true exactly for the format names csv and xlsx. If it is true and the schema does not describe a table (or there is none), then neither an entry reader nor an entry writer can be made, whatever the source and the options. For the formats json, ndjson and cbor it is false, and any schema of type array will do for readers and writers. The names .csv and .xlsx stand for the same formats and need a tabular schema as well, but RequiresTabularSchema is false for them.",
 "all format names, schemas, options, sources and destinations","All schemas and structures.",
 ["structure.go: RequiresTabularSchema, DataFormat","dsio/dsio.go: NewEntryReader, NewEntryWriter","tabular/tabular.go: ColumnsFromJSONSchema"])
