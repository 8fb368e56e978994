# Formal model of qri-io/dataset in Rocq (Coq 8.16.1)

## Layout

* `rocq/theories/*.v` in four layers:
  * `Base.v`: bytes (as `N`), Go values, results, sorted maps, small list lemmas.
  * `M_*.v`: the model, one file per Go file or package. Definitions only. Each definition cites the
    /repo file and lines it models and says where it simplifies.
  * `S_*.v`: small independent specifications, written without using the model's helpers.
  * `L_*.v`: proofs.
  * `P_*.v`: the property theorems, each closed by `exact <lemma>`, followed by `Print Assumptions`
    and by at least one `Example` showing that a concrete, non trivial case meets its hypotheses.
* `properties.jsonl`, `MANIFEST.json`: generated by `tools/gen_meta.py` from `tools/props.py` and
  `tools/claims.py`.
* `seeded/LOG.jsonl`: experiments in which the model was edited like a realistic bug.

## Conventions of the model

* A byte is an `N`; theorems that need `< 256` say so. A Go string or byte slice is a `list N`.
* Go `error` is a value (`Err`), a run-time panic is the separate outcome `Panic`, non-termination cannot
  occur: recursive readers take fuel, running out of fuel is a separate outcome `OutOfFuel`, and a theorem
  shows that the fuel the model supplies is always enough.
* Maps are association lists kept sorted by key, so equality of maps is equality of lists.
* `float64`: in the JSON model floats are an arbitrary type with a formatting function (None for NaN and the
  infinities) and a parsing function; the round trip theorems assume that a float is printed as a plain
  integer, or as a number with '.', exponent or '+' that parses back (`float_format`). In the CBOR model a float is its
  64 bit pattern; in the statistics models it is a rational (no rounding, no NaN, no infinities).
* An `io.Reader` is the remaining bytes plus a schedule saying how many bytes each Read call returns and
  whether EOF arrives with the last bytes or after them.
* An `io.Writer` is the bytes written so far plus a schedule saying which calls fail.
* Goroutines and channels (identity reader) are a small step transition system.
* Pointers matter only for `Dataset.Assign`; there the model has an explicit heap.

## Trusted base

* Coq's kernel; `Print Assumptions` below each theorem (all are closed under the global context). `coqchk` also
  lists the axioms of `Coq.ssr.ssrunder`, a file of the standard library that some loaded library loads; no
  theorem here depends on them.
* The transcription of the Go code into `M_*.v`.
* The models of the Go standard library that the code calls (bufio, encoding/csv, encoding/json, encoding/base64, time,
  strconv, strings, path/filepath). They are written from the documented behaviour, as definitions (not
  axioms), in the same files.
* Not modelled at all (parameters where they matter): qfs resolution, jsonschema validation, gojsondiff, the file format of excelize,
  compression streams (functions between byte strings in `M_Convert`), html templates,
  logging, the ugorji codec beyond the CBOR bytes it emits.

## Plan per property

C01 `M_ReplaceCR`: crlfReplaceReader.Read over a source list, driven by a list of buffer sizes. Spec: inductive
relation "inserts newlines after some lone CRs" and the total normaliser. Induction over the read schedule.
C02 `M_Stream`: TrackedReader over an arbitrary step reader; invariant over call histories.
C03 `M_Stream`: PagedReader over an arbitrary entry reader (list of results); equal to skipn/firstn.
C04-C07 `M_Stream`: Copy, ReadAll, EachEntry, ConvertFile as loops over result lists and fallible writers; induction.
C08, C16 `M_Bufio`, `M_Json`: byte accurate bufio model and JSONReader in two layers: buffer calls (readTokenChar, readString, ...)
and the grammar as a program over those calls. `S_JsonPure` interprets the calls on the plain list of unread bytes;
simulation (`L_JsonBuf`), termination (`L_JsonTotal`), independence of the chunks (`L_JsonSteady`).
C09-C15 `M_JsonWrite`, `M_Sink`, `M_Utf8`: json.Marshal/MarshalIndent, the writer, sinks that fail. `S_JsonText`: JSON texts by rules;
`S_JsonBack`: what a written value comes back as, which calls are accepted; `S_Utf8`. Reading of complete, cut and
out-of-range texts by induction on the text (`L_JsonRead`, `L_JsonCut`, `L_JsonBad`, `L_JsonDoc`), writing in `L_JsonMarshal`, `L_JsonWriter`.
Not modelled: that slicing past the end of the array for a \u escape cut short by the closing quote may panic (the model gives '?').
C17-C21 `M_Cbor`, `M_BufMem`: reader as a program over ReadByte/Peek/Discard interpreted over bufio, over a list and over
bufio with its backing array (for slices that alias it); round trip by induction on values. Memory exhaustion and stack depth
are not modelled. The codec library's output for nil, bool, int64, float64, string, []byte, []interface{} and
map[string]interface{} is modelled from its documentation (canonical mode).
C22-C23, C65 `M_Unmarshal`, `M_NDJson`: json.Unmarshal into an interface (nesting limit is a parameter, Go's is 10000), bufio.ReadBytes
and json.Encoder. `S_NDJson`: JSON texts by the rules of RFC 8259; the decoder accepts exactly those (`L_Unmarshal`, `L_UnmarshalInv`).
C24-C27 `M_CsvText`, `M_Csv`: encoding/csv reader and writer over bufio and replacecr, csv.go cell casts and
constructors. Not modelled: line and column numbers in parse errors, compression, ReuseRecord aliasing.
C28-C29 `M_Columns`: positional arithmetic, compared with bijective base 26.
C30-C31 `M_Identity`: two-thread transition system with a rendezvous channel; invariant by induction over
executions; deadlocked reachable state.
C32-C35, C42, C60, C61, C63 `M_Components`, `M_Heap`, `M_MetaSet`, `M_Files`: records of fields; Assign as folds; heap with locations.
C36-C40 `M_Doc`, `M_Encode`: marshalling to and from ordered JSON trees, including Go's struct field matching.
C41 `M_Decimal`, `M_Time`, `M_Signing`: decimal text, RFC 3339 text of UTC times (years unbounded; Go limits them to int64 seconds), signing lines. The date arithmetic is ours, checked against the calendar rules by `calendar`.
C43-C46 `M_Formats`: kind, data format, options, file names.
C47 `M_Stepfile`: strings.Split / join on bytes.
C48, C66 `M_Vals`: ParseInt, comparison, type inference; float parsing is a parameter.
C50 `M_Float`, `M_Histo`: the sketch over any arithmetic, instantiated with float64 (Coq's `SpecFloat`, a definition
without axioms) and with rationals. Weights are integers: the code keeps them in float64, exact below 2^53.
MarshalBinary is modelled at the level of the numbers printed; NewFromSample is not modelled.
C49 `M_Stats`: accumulators over values of any nesting; `S_Stats` says what a report is in terms of the values alone
(`column`, `report`). The external hyperloglog estimate and top-k lists are functions of the texts written
(parameters); typed Go maps inside a report are generic values; a Go map is iterated in any listing order.
C51-C53, C67 `M_Detect`: detect.Structure, the format detectors and the tabular schema; the CSV reader is that of `M_CsvText`; varName.CreateVarNameFromString and float parsing are parameters; a body file is a source, or the io.MultiReader left by a first call. The JSON decoder of CSVSchema's schema text is `M_Unmarshal`. XLSX and NDJSON detection do not look at the body. C54 `M_Tabular`: map iteration order is a parameter (any permutation). C55-C56, C68 `M_Validate`: package validate; package jsonschema is a parameter; the CSV reader is `M_CsvText` over a plain bufio.Reader.
C57 `M_Tee`, `M_Preview`: entry readers are programs over Read (`prog`), run on a file or on a tee of it. C58 `M_Hash`: sha-256, multihash and base58 written from their documentation.
C59 `M_Generate` (random stream is a parameter). C62 `M_Diff`: gojsondiff
and the component encodings are parameters. C64 `M_Viz`: a template is any program that asks for body entries.
C69 `M_Xlsx`: excelize is a map from cell addresses to texts; file format, sheet keys and what is kept of a text are parameters.
C70 `M_Convert`: one reader and one writer type over the five formats, their constructors, and ConvertFile over `M_Stream`; compressors and
decompressors are parameters. Proofs reduce a conversion to `write_until` over the chosen entries.
C71 `M_Texts`: Go values by dynamic type (int and int64 differ); json.Unmarshal and json.Marshal as in `M_Unmarshal`, `M_JsonWrite`.
C72–C74 `M_Value`: vals/value.go, object_value.go, compare.go, coding.go: Values with pointers and keyed values, raw messages found with the scanner of `M_Unmarshal`, reflect.DeepEqual on sides that share no memory.
C75 `M_Compare`: dstest/compare.go on the heap of `M_Heap`; cmp.Diff is equality of exported fields (its contract).
C76 `M_Accrual`: meta.go:512-578 as a table.
C77 `M_Convert` with CSV on one side: `S_ConvertCsv` says which rows count, `L_ConvertCsv` joins the CSV reader and writer to the copy loop.
C78 `M_EntryBuffer`: one reader and one writer of `M_Convert` on one bytes.Buffer; `S_EntryBuffer` has queues, and readers and writers alone; `L_EntryBuffer` (lines), `L_EntryBufferJson` (arrays), `L_EntryBufferAlone` (any format).
C79 `M_Calculate`: the readers of `M_Convert` before the statistics of `M_Stats`; `S_Calculate` says which values a body holds, format by format, and which values count alike.
C80 `S_ConvertAny`: which values each format can store and how they are read back, and chains of conversions; proved over `M_Convert` from what `S_Calculate` says a body holds.
C81 `M_DetectRead`: the structure found by `M_Detect` as the readers of `M_Convert` see it; `S_DetectRead` has documents per format and what reading gives; proved from `P_Detect` (what is found) and `S_Calculate` (what a body holds).
C82 `M_DocText`: JSON text, RFC 3339 times and base64 below the documents of `M_Encode`; `S_DocText` has the grammar of texts of a document and which documents are legible; `L_DocParse` (reader), `L_DocTime` (times), `L_DocText` (writer and typed positions), `L_DocTyped` (what typed members are read from).
C83 `M_ValidateBody`: `M_Validate`’s reader loop on the readers of `M_Convert`; `S_ValidateBody` has object bodies and values that look the same as JSON; proved from `P_Validate` (batches), `P_Calculate` (what a body holds) and `P_ConvertAny` (conversions).
C84 `M_TestCase`: directories as functions from names to files, test cases with numbered file handles, golden files on the texts of `M_DocText` and the comparison of `M_Compare`; `S_TestCase` says what a directory holds and which datasets equal their golden files; proved from `P_DocText` and `P_Compare`.
C85 `M_Page`: the readers of `M_Convert` below bodyEntries of `M_Viz` and the conversion of `M_Preview`; `S_Page` says what a window asks for; proved from `P_Calculate` (what a body holds), `P_ConvertAny` (conversions) and `P_Viz` (windows).
C86 `M_Components` (references, IsEmpty, Assign), `M_Encode`; `S_Empty` says what an empty structure is and speaks of all sources that are there; by induction on the sources.
C87 `M_Requires` (RequiresTabularSchema) and the constructors of `M_Convert`; tables are those of `P_Tabular`.
