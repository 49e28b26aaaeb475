# Formal model of zerialize (Rocq 8.16)

Source: `/repo` (C++20 headers under `include/zerialize`). Properties: `properties.jsonl`.
Development: `rocq/theories`. Nothing is extracted or linked; the model was transcribed
by reading the C++ text, function by function, each definition citing file and lines.

## 1. How the C++ is modelled

* **Bytes** are `Z` in `[0,256)`, buffers are `list Z`. Sizes and offsets are `Z` with
  *explicit* wrap-around (`wrap32`, `wrap64`) wherever the C++ type is `uint32_t`/`size_t`
  and the operation can overflow. `size_t` is 64 bit.
* **Outcomes** (`res A`): `Ok a`, `Throw e` (the exception class is kept, the message text
  is not), `UB` (a read outside the buffer or a violated library precondition such as
  `span::subspan(off)` with `off > size()`), `NoFuel` (a loop that has not finished within the fuel;
  never produced by counted loops). UB is never identified with an exception.
* **Views** (`string_view`, `span`) are `(offset, length)` pairs into the buffer, so
  "stays inside the buffer" is a statement about the result and not an artefact of slicing.
* **Loops with a counter** are iterated by a binary-counter loop (`zloop`) so that a count of
  2^32 can be evaluated symbolically; they need no fuel. `for(;;)` loops and recursion take fuel.
  Termination theorems show which fuel suffices for every input; non-termination
  theorems show that *no* fuel suffices.
* **Writers** are state machines `step : state -> event -> state * res unit`; an event is
  one call of the `Writer` concept (`concepts.hpp`). The state after a throw is kept, so "catch and go
  on" histories are covered.
* **Readers** are records of functions, one per member of the `Reader` concept, over a view type.
* **Spec side** (`Spec.v`): value trees `val`, `events : val -> list ev`, and `shows`, the
  API-level relation "this reader view behaves like this value" (all predicates, all accessors,
  sizes, subscripts, contains, key order, exceptions on mismatch). `shows` only talks about
  the reader record, never about bytes.

## 2. Plan per property

| id | model / proof |
|----|---------------|
| C01 | byte-level ZERA writer + reader; representation relation `vrep`; induction on trees |
| C02 | exact size function from ZERA.md rules; success iff it fits |
| C03 | abstract stack machine; refinement for arbitrary event lists |
| C04 | invariant of the writer state, computed header |
| C05 | blob offset invariant (mod 16) |
| C06 | every accessor on every view satisfying the header invariant; KeysView and >=4 GiB-20 buffers refuted by witness |
| C07 | counted loops are total; translate of a cyclic buffer refuted (no fuel suffices) |
| C08 | acceptance characterised exactly; `env_size < 16` acceptance refuted |
| C09, C10 | from C01 for written messages; arbitrary buffers: positive direction where true, witnesses where false |
| C11 | all bit patterns |
| C12 | threshold is a parameter of C01, plus the setter |
| C13-C17 | byte-level MessagePack reader; writer = msgpack-c packing rules (trusted transcription of the documented format); witnesses for the defects |
| C18-C24 | byte-level CBOR reader; writer = jsoncons encoder rules; witnesses |
| C25-C27 | base64 against an RFC 4648 specification on bit strings |
| C28-C31 | JSON adapter over document trees: yyjson's printer and parser are modelled as functions between trees (finite doubles, UTF-8, 64-bit integers), the text syntax is the subject of C84; the writer's container stack is modelled call by call |
| C32-C33, C55-C57 | Flex reader/writer adapter over a tree model of FlexBuffers messages; the builder is its value stack, `std::sort` any sorting function; asserts abort or are absent (`dbg`); the byte layout is C86 |
| C34-C36 | generic `write_value` over reader/writer records (TransModel); the value a view exposes to a generic copy (TransSpec); all 25 pairs at once through the `protocol` record. Refuted parts: uint64 from 2^63 on out of CBOR and JSON, JSON arrays shaped like blobs, repeated keys |
| C37-C38 | expressions (`bexp`, `dyn`) run against an arbitrary writer step function (BuildModel); `denotes` relates an expression to a value tree (BuildSpec); WriterView is a record of twelve functions |
| C39 | finish() of the initial state of each writer, read back; MessagePack refuted |
| C40-C44, C58-C60 | xtensor containers as shape, strides, offset and memory, Eigen matrices as rows, columns, order and memory (TensorModel); reading is generic over `reader`, writing goes through the builder model; blob addresses are a parameter. Round trips combine `protocol_round_trip` with one lemma on views that show the triple (`read_tensor`, `read_matrix`); C41, C42, C60 hold for any reader. xtensor and Eigen memory layouts assumed as documented. Not modelled: TensorIsMap = true (does not compile). Refuted: column-major, strided views, overflowing sizes, dimensions from 2^32, differing storage orders |
| C45-C49 | ZBuffers in numbered variables; operations construct/move/assign/destroy; adoptions and deleter calls go to a trace (ZbufModel). `released`, `polite`, `crun` (what each variable should contain) in ZbufSpec; proof by an invariant over histories. unique_ptr, variant and vector moves as in libstdc++ (assumed). Refuted: moved-from size, empty deleters, hexdump width 0 |
| C50 | readers in numbered variables over a heap of blocks; two designs, vector member with a span (MessagePack, CBOR, Zera, Flex) and JSON document pointer (OwnModel). `track` says what each variable should read (OwnSpec). Refuted: copies of owners, `r = r["key"]`, self-move |
| C51, C62 | a memory of string storages that the caller changes between writer calls (LifeModel part 1); JSON nodes hold the address until finish(). The JSON writer never looks into strings, so running it on addresses and resolving them later equals running it on the contents at the end (LifeFacts, LifeJson). C62 counts yyjson documents. Refuted: changed, freed and null strings; leak on a throw |
| C61 | programs of declarations, assignments and scope ends over objects with addresses; builders store addresses; temporaries die at the end of their statement (LifeModel part 2). Refuted: stored builders with temporary or dead arguments |
| C63-C64 | to_string of MessagePack, Flex, CBOR, ZERA as functions to bytes (TextModel), against a layout function on values and RFC 8259 escapes (TextSpec); the text of a double is a parameter. Dumps with escapes shown to identify the value by peeling the text off from the left (TextInj). Refuted: CBOR dumps of nested arrays, maps holding arrays, empty maps, unescaped strings; over-reads on malformed MessagePack and CBOR, and on CBOR with bytes after the item. Safety for every view of a MessagePack message that skip() accepts (TextSafe) and of a CBOR message that is one well-formed item (TextSafeC: the overrunning dump only ever stands on an item or a break byte). JSON to_string is yyjson's printer: not modelled |
| C65 | writer state after finish(): the writer models keep it; ZERA through C03 and prefix-freeness of call sequences, JSON by the null document pointer. Refuted: empty second buffers of MessagePack, CBOR and Flex |
| C66 | `asFloat` of every reader as the IEEE conversion of `asDouble` (NarrowModel.v, on bit patterns); nearest-even stated on the values of FloatSpec.v and proved from scratch; composed with C37's round trips at every position of a message |
| C67 | the address of a ZERA blob is the message address plus its offset (AlignModel.v); payload offsets of any written message are multiples of 16 (C05), so the alignment test of the view functions (C42) succeeds; the round trips add C40/C44 |
| C68 | the eight kinds, their tests and accessors over the `reader` record (KindSpec.v); case analysis of each reader on an arbitrary view, MessagePack exclusivity over the 256 markers. Refuted: empty MessagePack views, JSON blobs are arrays |
| C69 | positions (`value_at`, `view_at`) composed with the uniform round trip of C34/C37; refuted for signed integers of 128 and more in MessagePack |
| C70 | mapKeys, contains and operator[] followed along the same chain of entries (`ents`, `cents`) of arbitrary bytes; views reached from an accepted message are accepted (`reach_good`, `item_reach`); refuted on truncated values, CBOR simple values in two bytes, unordered FlexBuffers keys. FlexBuffers bytes: two readers that answer alike agree in this too (FlexBLook.v) |
| C71 | the same chains for arrays; definite lengths by prefixes of the skip chain, indefinite ones by running both loops together; refuted where a header announces more elements than there are |
| C72 | unique decoding: `enc x ++ s = enc y ++ t` gives `x = y` for MessagePack objects and CBOR items (all forms, indefinite ones included), a ZERA ValueRef stands for one value (`vrep_fun`); refuted for MessagePack strings of 4 GiB by an explicit collision |
| C73 | the simulation relations of C01, C13, C18 stated at the start of a longer buffer |
| C74 | every reader operation is monotone in the buffer (`below`, a relational bind over all loops); paths by induction; for written messages composed with the round trip of C73; refuted for the empty MessagePack prefix |
| C75 | key ranges and iterators as objects with addresses and lifetimes (KeyIterModel.v), client programs as lists of commands; the expected outputs come from a machine whose iterators are positions (KeyIterSpec.v); forward simulation, per protocol a chain from the begin iterator over the keys; refuted without the lifetime rules of ZERA, FlexBuffers and CBOR |
| C76 | `says` (SaysSpec.v) is the value obtained by reading everything below a view; induction on the recursion of write_value in one direction, on the value in the other; ranges of all reader results on arbitrary bytes (SaysTyped.v, FlexBTyped.v, JTextTyped.v; the last shows that rounding to binary64 yields 64 bits) |
| C77 | every reader operation and writer call is shown to answer (never `NoFuel`), children are smaller than their container in a measure per format, and write_value is an induction on that measure; into CBOR an induction on the encoder's remaining depth. Refutation: `stuck_key`, where the key iterator's position wraps around to itself JSON texts: the height of a document is below the length of its text (Properties_MeanJ.v) |
| C78 | the fuel of write_value, mp_skip and skip counts nested calls, so 'runs out of fuel below n' is 'nests n calls'. `depth` is defined on values, the exact count is an induction on the value (translate) and on the item (mp_skip). Refutation: arrays of one element nested d times. Into CBOR: `deep_halts` from C77 |
| C79 | `size` is defined on values (SizeSpec.v) and compared with the length of the bytes of any message that `says` the value (C76). Elements and entries found by the readers occupy disjoint stretches of the buffer, whose lengths add up (SizeMsg.v, SizeCbor.v). Refutations: nested maps repeating their key, and ZERA arrays whose two references are the same (SizeGrow.v). FlexBuffers: the builder's buffer and stack together grow by at least one byte per node (FlexBGrow.v); refuted by shared keys, shared elements and a cycle. JSON: induction on the RFC 8259 grammar of JTextSpec.v (SizeJson.v) |
| C80 | The meaning of a MessagePack object (`mp_meaning`, MeanSpec.v, after the MessagePack specification) and of a ZERA message (`denotes`, `zera_stands_for`, MeanZSpec.v, after ZERA.md) are defined without the readers. Likewise `cb_meaning` (MeanCSpec.v, after RFC 8949), with the items that are read as such (`cb_common`). Compared with `says` (C76): MeanMsg.v and MeanCbor.v by induction on the object, using the skipping lemmas of MsgFacts.v and CborFacts.v; MeanZera.v by induction on the value. The converse for CBOR: CborSound.v inverts each accessor, SoundCbor.v shows by induction on the value read that an item stands there (conditions in SoundSpec.v). Documents just written: MeanShows.v connects the round trip of C01 with `says` JSON: `json_stands_for` (MeanJSpec.v) is the RFC 8259 grammar of JTextSpec.v with UTF-8 strings, finite numbers, blobs as arrays and first values of repeated keys; proved equivalent to opening and reading the bytes (MeanJson.v, Properties_MeanJ.v) |
| C81 | `whole` (CallSpec.v) says without the writers when announced lengths add up to one thing. The output of any call sequence is a concatenation of headers and payloads; that it is one object or item exactly for `whole` sequences follows from unique decoding (C72), for any self-delimiting format at once (CallFacts.v). Wrong lengths in CBOR: mutual induction on `calls`. Refuted by short sequences. |
| C82 | Encodings are the items of MsgSpec.v and CborSpec.v, what they stand for is `mp_meaning` / `cb_meaning` (C80), equality of values is `same_value`. Induction on the value: each header the writer chooses is the least that holds the length or number; chunk headers together never beat one header below 4 GiB. Refuted by narrow floats, repeated keys, arrays of 256 entries, NaNs, and a 4 GiB blob |
| C83 | Each accessor is inverted: CborSound.v, FoundCbor.v and FoundMsg.v show which object of CborSpec.v / MsgSpec.v must stand where it returned; the converse is the leaf observation lemma of C13/C18. asBlobVec() (CBOR only) is covered here, its safety under C20. MessagePack views inside containers: an accessor that returns on a view returns the same on the view widened to the end of the message (FoundIn.v); conversely the size mp_skip() gave the view is that of the object, below 4 GiB (FoundBack.v) |
| C84 | JSON text as bytes: yyjson's compact and pretty printers and its parser as functions on byte lists (JTextModel.v), against the grammar of RFC 8259 as inductive relations carrying the tree (JTextSpec.v); parser sound and complete for the grammar (JTextFacts.v), printers produce it (JTextPrint.v), messages, prefixes and suffixes in JTextMain.v. Also the JSON parts of C63, C72, C73, C74 |
| C85 | decimal numerals to doubles with SpecFloat's division and rounding (JTextModel.v `dec_double`); nearest double, ties to even, stated over integers in units of 2^-1074 (DecSpec.v), proved in DecFacts.v, unique and onto the finite doubles in DecMain.v; the grammar theorems of C84 then hold for every rounding meeting the spec |
| C86 | flexbuffers::Builder and Reference over bytes (FlexBModel.v): widths, alignment, offsets, key pool, typed key vectors, root; simulation between the byte machine and the tree machine of FlexModel.v for every history of calls (FlexBSim.v); `same` (FlexBSpec.v): every accessor answers alike to any depth; sizes by a potential argument over the calls (FlexBSize.v); the protocol list of C34-C37, C39, C40, C44, C58, C59, C66, C69, C76, C77, C80 (`is_protocol`, TransMain.v) has FlexBuffers both as trees and as bytes; refuted for trailing bytes, truncation, arbitrary and cyclic bytes |
| C87 | FlexBFormat.v: the FlexBuffers layout as a relation between bytes and values (`lays`, `message`), independent of the code, with an alignment condition as parameter; layouts and the trees of FlexModel.v represented in bytes are the same thing (FlexBConf.v), so any layout is read as its value, and the builder's bytes are an aligned layout; refuted for typed vectors |
| C88 | debugging::dump_flex over the bytes of a message (FlexTextModel.v), against a layout function on values (FlexTextSpec.v); proved for the layouts of FlexBFormat.v by induction on the value (FlexTextFacts.v), the text identifies the value (FlexTextInj.v); refuted for out-of-line numbers, typed vectors, the empty buffer and cyclic bytes. The same for to_string over bytes (C63, C64) |
| C89 | The definitions of TensorModel, unchanged; `describes` (TensorStored.v) speaks of the 64-bit accessors only. Induction over the dimension loop; that unsigned accessors are never negative comes from `source_typed`. The element type is exact where asInt32 checks the range (`checked_source`) and reduced to 32 bits elsewhere; refuted for JSON and FlexBuffers |
| C90 | The definitions of TensorModel, compared step by step (TensorBoth.v): dimensions below 2^32 make the overflow check of asXTensorView pass and the product of asEigenMatrixView exact. Column-major matrices hold the tensor's elements in the order of the bytes (same elements for a single row or column). Matrices of fixed size accept the tensors of their dimensions, with the same elements; allocation failure of asXTensor is the only difference. Refuted: the same element at every (row, column) of a column-major matrix |

A property that is false of the code is kept in full in `properties.jsonl`; the model
then proves a `..._refuted` theorem with an explicit witness and a `..._partial` theorem with
the exact extra hypothesis under which it holds.

## 3. Trusted base

* Coq 8.16.1 kernel (including `vm_compute`).
* `Print Assumptions` answers "Closed under the global context" for every property theorem (the command follows
  each of them in the `Properties_*.v` files): no axiom, from the standard library or elsewhere, is used. (`coqchk`
  also lists `Coq.ssr.ssrunder.Under_rel.*`, part of the loaded standard library; no theorem depends on it.)
* The transcription of the C++ into Gallina.
* Not modelled: exception message texts, allocation failure (except where a
  length taken from the message is requested, `EBadAlloc`),
  third-party internals (yyjson's choice of digits for doubles, flexbuffers.h beyond the builder and
  reference functions of FlexBModel.v, msgpack-c/jsoncons beyond the
  encoding rules stated in the model), threads (the library has none), compile-time concepts.

## Seeded faults

`seeded/LOG.jsonl` records wrong versions of the model. Each was built in a scratch copy. A proof that no longer
went through was replaced by `Admitted` there, and the build continued. `theorems_failed` lists the property
theorems whose `Print Assumptions` then named such a lemma.

- A theorem in `theorems_failed` lost its proof. That does not by itself show that its statement became false:
  theorems that share a broken lemma are listed with the one whose claim the fault breaks.
- A fault is counted as detected if a theorem about the claim in `claim_broken` is in the list.
- Where `files_rebuilt` names files, only those and what they depend on were rebuilt. Theorems in other files
  were then not examined. Entries without the field, or with `all`, rebuilt everything.
