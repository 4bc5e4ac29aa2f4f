# Formal model of go-ipld-git

Rocq (Coq 8.16.1) model of the package in `/repo`, and proofs of the properties
listed in `properties.jsonl`.  Everything is in `rocq/theories`, logical name
`Verif`.

## Layout

Model (each definition cites the lines of `/repo`, or the library function, it models):

| file | content |
| --- | --- |
| `Base.v` | byte strings, result type (`Ok`, `Err`, `Panic`, `OutOfFuel`), errors, list lemmas |
| `GoStr.v` | Go string/slice operations with their panics, `bytes.Split`, `hex`, `strconv.Atoi`, `%d` |
| `Cid.v` | multihash and CID bytes, `shaToCid`, `cidToSha`, `Prefix` |
| `Types.v` | values of the generated types, the `node` type and its scalar methods |
| `Nodes.v` | iterators, lookups, lengths and representations of the generated nodes |
| `Reader.v` | reader operations (record `rdops`) and their stream semantics |
| `Bufio.v` | `bufio.Reader` with its buffer array, `r`, `w`, pending error, over a scripted `io.Reader` |
| `Person.v` | `parsePersonInfo`, `GitString` |
| `Assemble.v` | `AssignNode`/`AssignBytes` of the generated builders, in one go |
| `Builder.v` | the generated assemblers call by call, as a state machine, for any schema |
| `AssignCalls.v` | `AssignNode` and `datamodel.Copy` as sequences of calls on the machine of `Builder.v` |
| `TreeHeap.v` | `_Tree` under construction: slices, reallocation and the map of pointers |
| `Decode.v` | the decoders and entry points, generic in the reader |
| `Encode.v` | `Encode` and the encoders, generic in the writer |
| `Foreign.v` | `Encode` over the methods of any implementation of `ipld.Node` |
| `DecodeAny.v` | the decoders over any implementation of `ipld.NodeAssembler` |
| `Reuse.v` | `Decode` with the builders of `Builder.v`, again and again with the same one |
| `TreeShare.v` | the tree builder with its pointers into a memory shared by many trees; `AssignNode` of a tree |
| `Moving.v` | `Encode` over nodes whose answers change from call to call and whose iterators need not end |
| `Quote.v` | `strconv.Quote` and `%q`, the texts of the errors of decoding |
| `BlobShare.v` | arrays, slices, blobs and blob builders in one world; who shares bytes with whom (C73) |
| `Schema.v` | the schema in `gen/gen.go`, as data |
| `Inflate.v` `Zlib.v` | the decompressor behind `ParseCompressedObject`: compress/flate, compress/zlib, hash/adler32 |
| `Int32.v` | the decoders with an `int` of w bits, for C63 |
| `Output.v` | what `DecodeTag` prints, for C65 |
| `Cost.v` | the decoders again, counting the bytes copied, elements moved and lines read, for C66 |
| `EncodeCost.v` | the encoders again, with the calls of `fmt` and the format strings of the code, counting the bytes copied, for C74 |
| `Methods.v` | the 422 methods that refuse calls of the wrong kind, as a table; which answer a node gives to each call (C75) |
| `Protos.v` | Prototype, NewBuilder, KeyPrototype, ValuePrototype of all types, and the assemblers that assemblers hand out, as tables (C76) |
| `FieldBits.v` | the field bits of struct assemblers, the tests on them and the errors they lead to, as tables (C77) |
| `Wiring.v` | the statements of the cases of struct assemblers as tables, run on the states of `Builder.v` (C78) |
| `Code.v` | the statements of all methods of all assemblers and key assemblers as tables, run on the states of `Builder.v` (C79) |
| `Machine.v` | the tables of parts, bits, cases and bodies put together as one program (C80) |
| `Typed.v` | field accessors, Maybes, typed lookups and iterators, prototypes |
| `DecodeEnd.v` | the decoders once more, also returning the reader they leave behind |
| `LinkSystem.v` | storing, computing links and loading through `ipld.LinkSystem`, for any hash function |
| `Sha1.v` | SHA-1, for examples |
| `BufferMem.v` | capacities of `bytes.Buffer` and `io.ReadAll` while data arrives |

Specification (readable without the proofs; refers to byte strings and value types only):

| file | content |
| --- | --- |
| `Spec.v` | git objects as byte strings, canonical values |
| `HeaderSpec.v` | which texts are commits and tags, cut in lines and blocks, and what they mean |
| `ErrorSpec.v` | which texts are no objects, and what is wrong with them |
| `CutSpec.v` | what becomes of commits and tags that break off, place by place |
| `NormalSpec.v` | the fields of a commit or tag in terms of its lines; the order in which it is written |
| `SurviveSpec.v` | exactly which objects come back byte for byte |
| `SettleSpec.v` | what becomes of objects that are written and read again and again |
| `SchemaSpec.v` | when a node conforms to a type of a schema |
| `ForeignSpec.v` | when a node of one implementation behaves like one of another |
| `EncodeCostSpec.v` | the links in a node and how long their CIDs are, for C74 |
| `MethodsSpec.v` | which methods a kind has; names and kinds of the types, for C75 |
| `ProtosSpec.v` | the types of fields, elements and values in the schema, for C76 |
| `FieldBitsSpec.v` | a struct's keys as a set: what is invalid, repeated, missing; for C77 |
| `InflateSpec.v` `ZlibSpec.v` | the formats of RFC 1951 and RFC 1950; how a reader hands out bytes |
| `ReaderSpec.v` | which sources and readers behave, and which stream a reader delivers |
| `CidSpec.v` | CIDs and multihashes as in the multiformats documents |
| `StructSpec.v` | when a node holds the data of a struct |
| `NodeSpec.v` | what iterating over a node yields |
| `WalkSpec.v` | walking with iterators, paths |
| `BuilderSpec.v` | the phases of a builder, and the documented order of calls |

Proofs:

| file | content |
| --- | --- |
| `StreamFacts` `NumFacts` `PersonFacts` `CidFacts` `NodeFacts` `StructFacts` | operations, numbers, persons, CIDs, nodes, structs |
| `DecodeFacts` `RoundTrip` `CommitFacts` | decoding and encoding canonical objects on streams |
| `GrammarFacts` `NormalFacts` `PrefixFacts` `CanonFacts` | decoding agrees with `HeaderSpec.v`, both directions; normal form; uniqueness |
| `ErrorFacts` | decoding fails as `ErrorSpec.v` says, both directions |
| `CutFacts` | every place where a commit or tag can break off is in the tables of `CutSpec.v`, and they are right |
| `ReuseFacts` | builders of structs that are given nodes of other types: what is begun and what stays |
| `TreeShareFacts` | where the pointers of a builder can point before and after it is given a tree |
| `MovingFacts`, `MovingWalk` | on nodes that stand still `Moving.v` is `Foreign.v`; one walk through its functions for any relation the loops and methods keep |
| `QuoteFacts` | quoted strings are read back, plain, and UTF-8 |
| `BlobShareFacts` | slices fit their arrays, and blobs a client knows keep their slice |
| `TreeAgreeFacts` | map and slice of the tree that one builder makes |
| `CostFacts` | the counting decoders: same results, same costs over equal readers, upper and lower bounds |
| `SurviveFacts` `SurviveCommit` `SurviveIff` | what is written, read again: lines that fill the buffer, headers, both directions of C52 |
| `SettleFacts` | one round of writing and reading; when nothing changes any more |
| `InflateFacts` `InflateSound` `InflateTotal` `ZlibFacts` | every stream of the format is read, nothing else is, and reading always ends |
| `Sim` `BufioFacts` `Transfer` | simulation of the buffered reader by the stream; transfer of theorems |
| `SafeOps` `SafeBufio` `NoEof` `Invariants` | what holds for every reader, well behaved or not |
| `TreeHeapFacts` | the tree with pointers refines the tree of `Assemble.v` |
| `BuilderFacts` `BuilderRuns` | the machine of `Builder.v` follows the phases of `BuilderSpec.v` |
| `AssignFacts` `AssignLoops` `AssignLink` | sequences of calls on children, fields, elements and entries; they end as the functions of `Assemble.v` say |
| `DecodeEndFacts` | `DecodeEnd.v` agrees with `Decode.v`; what is left unread |
| `GitObjects` | checks against the 24 objects of `/repo/testdata.tar.gz` |
| `RepoTests` | the tests of `git_test.go` and `unmarshal_test.go`, run on the model: compressed objects, persons, errors |
| `Checks` | boolean checks for concrete examples |
| `Props_*.v` | the theorems, each followed by `Print Assumptions` and by an example meeting its hypotheses |

## Modelling decisions

* Bytes are `Init.Byte.byte`; strings and byte slices are `list byte`.  Go `int`
  is 64 bit, except in `Int32.v` (C63): `Atoi` rejects values outside int64.  Lengths are unbounded
  naturals (no object of 2^63 bytes exists in memory).
* Every Go operation that can panic (indexing, slicing, nil dereference, nil map
  store, type assertion, explicit `panic`) yields `Panic` in the model; loops
  take fuel and yield `OutOfFuel`, and we prove that neither happens where the
  property says so.
* Decoders are written once over a record of reader operations whose lines are
  *views* that must be dereferenced in a reader state.  They are instantiated
  (a) with a model of `bufio.Reader` including the buffer array that later reads
  overwrite, and (b) with a pure stream.  A refinement theorem transfers
  everything proved about (b) to (a), for any chunking of the input.
* The underlying `io.Reader` is a script: the list of what its successive calls
  deliver (bytes, error), then an error that repeats forever.  Bytes that do not fit
  the buffer offered stay for the next call.  The buffered reader is deterministic, so
  a run against a reader whose answers depend on the sizes asked for is also a run
  against the script of its answers.  A source that delivers data forever is left out:
  no decoder ends on it.
* The buffer size `B` is a parameter.  Theorems hold for every `B` from 64 (or
  less) up; 4096 is `default_B`.
* Where Go leaves a choice to the runtime (growth of slices, size classes, chunk
  sizes of `io.ReadAll`, spare capacity) the model takes it as a parameter and the
  theorems quantify over it.
* Encoders are written over an abstract `io.Writer`.
* CIDs are their byte strings; links are nil, `cidlink.Link`, or a foreign
  implementation of `ipld.Link`.
* IPLD nodes are an inductive type with one constructor per node
  implementation: the generated typed and representation nodes and the generic
  (basicnode) ones.
* A property the code violates has a theorem with the suffix `_refuted` that
  proves the violation, beside the exact statement of what does hold.

## Trusted base

Coq's kernel, including its `vm_compute` (used for concrete examples and finite
case checks).  No axioms: `Print Assumptions` says "Closed under the global
context" for every theorem in `MANIFEST.json`.  (`vcheck` lists seven library
axioms `Coq.ssr.ssrunder.Under_rel.*`: they are the sealed module `Under_rel` of the
standard library, loaded by other library files.  No theorem depends on them.)

Also trusted: that the model matches the Go code and the libraries it calls.

Modelled from the package: `blob.go`, `commit.go`, `helper.go`, `marshal.go`,
`personinfo.go`, `tag.go`, `tree.go`, `unmarshal.go`, `util.go` entirely;
from the generated code (`ipldsch_types.go`, `ipldsch_satisfaction.go`,
`ipldsch_minima.go`) the values, iterators, lookups, lengths, representations and
all assembler methods.

Modelled from libraries: `bufio.Reader` (NewReader, Read, ReadSlice, ReadString,
ReadLine, fill), `io.ReadAll`, `io.ReadFull`, `io.CopyN`/`LimitedReader` into a
`bytes.Buffer`, `bytes.Buffer.WriteTo` and its growth, `bytes.Split`,
`HasPrefix`, `hex`, `strconv.Atoi`, `%s`/`%d`, multihash and CID prefixes,
basicnode maps and lists, `datamodel.Copy` of maps, and for C51 `ipld.LinkSystem` (Store,
ComputeLink, Load), `cidlink.LinkPrototype.BuildLink`, `io.TeeReader` and
`io.MultiWriter`, for C75 `mixins` and `ErrWrongKind` (without its text), for C61 and C62 the readers of `compress/zlib` and `compress/flate` and
`hash/adler32` (in C34 the decompressor is still an arbitrary function).

None of the library sources were available while this was written: neither the Go
standard library nor go-ipld-prime, go-cid or go-multihash.  Their models come from knowledge of
their behaviour and could not be compared with the code.

Not modelled: SHA-1 (an arbitrary
function with results of 20 bytes in C51; `Sha1.v` is used in examples only), the registry
itself that `init.go` adds the codec to, other `fmt` verbs, garbage
collection and memory limits other than C43, the texts of errors of encoding and of panics (those of
decoding are in C72; which runes are printable is a parameter there), and the code generator that `gen/gen.go` calls (its input is `Schema.v`,
its output the generated code).

## Tests with wrong programs

`seeded/LOG.jsonl` has one line per edited model.  Each edit is applied to a scratch
copy; every file that depends on it is recompiled (where a line's note says so, only
the files its claim needs).  A proof that breaks is replaced
by an appeal to an axiom that exists in the scratch copy only, so that the rest of
the build can go on; `Print Assumptions` then tells which of the theorems depend on
a broken proof (`failed`) and which are still proved (`closed`).

## Properties

| id | how modelled | how proved |
| --- | --- | --- |
| C01 | `parse_object`, `encode`, blob | stream lemma for header and `CopyN`, `Atoi (dec n) = n` |
| C02 | tree decoder loop, tree builder | induction on the entry list of the specification |
| C03 | commit decoder, encoder | induction on each repeated section of the specification grammar |
| C04 | tag decoder, encoder | line lemmas |
| C05 | as C01-C04 from the node side | corollary of the specification theorems |
| C06 | encoder on all nodes | case analysis on `encode` |
| C07 | two objects, and their links | corollary of C05 and C51 |
| C08 | `parse_person`, `git_string` | structural characterisation of split/scan, both directions |
| C09 | `parse_person` with panicking index operations | loop invariant on the index |
| C10 | decoders with panicking slices, fuel | invariants; fuel bounded by input length |
| C11 | `Bufio.v` | simulation between `bufio` and stream; refutation example for the exception |
| C12 | views dereferenced in the state at the time of use | same simulation; the stream semantics has no views |
| C13 | stream with terminal error | case analysis and induction on loops |
| C14 | scripted reader with one transient error | concrete witness |
| C15 | `parse_object` | case analysis |
| C16 | `decode_blob` | case analysis, `Atoi` facts |
| C17 | decoders | header is consumed then dropped |
| C18 | decoders and `Cid.v` | invariant on the object under construction |
| C19 | `Cid.v` | direct |
| C20 | `encode` of decoded nodes | from C18 invariant |
| C21 | tree builder | invariant: keys distinct |
| C22 | `TreeHeap.v`: map of pointers into reallocated slices | refinement invariant, for every growth policy |
| C23 | `decode_tree` on prefixes | proved part: cut inside a hash; refutation of the rest, and exact result for every cut |
| C24 | commit/tag decoders | stream lemma |
| C25 | commit decoder | induction |
| C26 | `encode . decode` | general lemma on the position of other lines; witness |
| C27 | `decode_gpgsig` | case analysis, induction |
| C28 | `read_line` with buffer size as parameter | lemma for short lines; long lines of commits and tags as an equivalence with their pieces |
| C29 | tag decode/encode | general theorems |
| C30 | `encode` of views | equality for tree/tag/blob, panic for commit |
| C31 | `encode` of generic nodes | case analysis |
| C32 | encoders over an abstract writer | for all writers |
| C33 | `decode_block` | direct |
| C34 | entry points | equality |
| C35 | `assign_node` of builders of other types | case analysis and witness |
| C36 | struct builders over key/value lists | exact characterisation against `StructSpec.v`, permutation invariance |
| C37 | `Builder.v`: every assembler method as a step, any schema | refinement to the phases of `BuilderSpec.v`, over all call sequences on the handles a client holds; refutations outside that |
| C38 | `node` iterators and lookups | case analysis |
| C39 | list nodes | direct; refutation |
| C40 | decoders' final reader state | stream lemmas |
| C41 | composition | from C44/C05 with the well-formedness of decoded values; necessity |
| C42 | `read_line` | direct |
| C43 | `BufferMem.v`: capacities of `bytes.Buffer` and `io.ReadAll` | invariant over all reads, for every rounding of sizes; the traced decoder is the decoder |
| C44 | `HeaderSpec.v` grammar | decoding agrees with it in both directions |
| C45 | `parse_person` | both directions |
| C46 | `encode . decode` | survivors are canonical, from C44 and the normal form |
| C47 | `read_line` at the buffer boundary | stream lemma |
| C48 | iterators of `Nodes.v`, the walk of `WalkSpec.v` | from the field theorems C22, C24 and the iterator theorems C38 |
| C49 | `lookup_by_segment` and iterators, paths of `WalkSpec.v` | induction on the path; refuted that different paths reach different nodes |
| C50 | `AssignCalls.v` run on the machine of `Builder.v` | for every node, by loop invariants over fields, elements and entries, it ends as `Assemble.v` says; copying against assigning |
| C51 | `LinkSystem.v` over `decode_into_end` | the hasher sees what was pulled from the source, by simulation; exact outcomes except for data after a blob, refuted there; shortened hashes refuted |
| C52 | `encode . decode`, specification `SurviveSpec.v` | both directions: the written lines are cut by the reader as `cutl` says, determinism of reading, then a walk along both texts shows that each header is in its place |
| C53 | `LinkSystem.v` | from C51 and C52 |
| C54 | `Typed.v` | case analysis; induction over positions for iterators; LookupMaybe of lists refuted |
| C55 | `rebuild` in `Typed.v`, assignment in `Assemble.v` | case analysis, items of lists by induction; the panics are part of the statement |
| C56 | `LinkSystem.v`, specification of repositories and walks in `Props_follow.v` | from C51 and C52; induction over walks |
| C57 | specification `SettleSpec.v` (what becomes of each field after k rounds) | `SettleFacts.v`: one round maps the k-th form to the next, over the header grammar of C44; induction over rounds; exactness from C41; `Props_settle.v` |
| C58 | `Foreign.v`: Encode and the assemblers it uses over the methods of an arbitrary type of nodes; specification `ForeignSpec.v` | agreement with `Encode.v` on the nodes of `Types.v`; simulation between two implementations up to failures; refutation for the tagger |
| C59 | `DecodeAny.v`: the decoders over an arbitrary assembler | case analysis; agreement with `Decode.v` for fresh builders |
| C60 | `Schema.v`: the calls in `gen/gen.go` as data; specification `SchemaSpec.v` | conformance of each type by its fields; struct builders by C36; the crash by induction over the entries; refutations for commits, trees and nil links |
| C61 | `Inflate.v`, `Zlib.v`; specification `InflateSpec.v` (bits, blocks, code words by their canonical order) and `ZlibSpec.v` | completeness by induction over the derivation of the format, soundness by induction over the run, both through the order of canonical codes; totality by the bits left; the checksum by a congruence; the rest by simulation of the buffered reader, without ReadLine for trees and blobs |
| C62 | same | from C61 and C13: a source that never says EOF makes all decoders fail but that of blobs; small blobs by the loop of `io.CopyN` |
| C63 | `Int32.v`: `readNullTerminatedNumber` and its callers with an `int` of w bits | the numbers by induction over the digits; the decoders by comparison with those of `Decode.v` |
| C64 | `ErrorSpec.v`: what can be wrong with a text, with the error for it | decoding agrees with it in both directions, by induction over lines and entries; that errors stay, on the specification |
| C65 | `Output.v`: the loop of `DecodeTag` with the standard output | the same results for every reader; the lines printed by induction over the lines of the header, against `HeaderSpec.v` and `ErrorSpec.v` |
| C66 | `Cost.v`: every decoder returns its cost beside its result; growth of slices, `strings.Builder` and `bytes.Buffer` is a parameter, as are the sizes of the reads | amortised: the budget for the bytes still to come and a potential for the room left in builders and slices pay for each step, by induction over the lines and entries; the lower bounds by induction, too |
| C67 | no new model; `CutSpec.v`: tables of the places where a commit or tag can break off, with the value or the error | each row gives a text described by `HeaderSpec.v` or `ErrorSpec.v` (C44, C64), and every proper beginning is in a row |
| C68 | `Reuse.v`: the decoders of `DecodeAny.v` filling the machine of `Builder.v` through `AssignCalls.v` | an invariant for each type of builder that says which fields were begun; each decoded object is one step of a small machine, whose states agree with the specification by induction over the objects |
| C69 | `TreeShare.v`: arrays, maps and pointers, every call on a tree builder; calls on its value assembler are over-approximated by any write through its pointer | invariants over all calls: no pointer of the builder is to a cell of the given tree (or only to its last one, if it came late), and each new binding of the shared map is a name beyond it; other trees: an invariant of the arrays and maps that a builder can write to |
| C70 | `TreeShare.v` | an invariant over all calls: each binding of the map is to a cell with that name, the value assembler points to the last cell, and the bindings read like the slice from its end |
| C71 | `Moving.v`: the functions of `Foreign.v` over methods with a state, loops with fuel; `MovingSpec.v`: the record of what iterators gave | each success is traced to a node of this package; two relations carried through all functions: more fuel gives the same, and out of fuel only after one iterator gave that many times; on fixed answers it is C58's model |
| C72 | `Quote.v`; `QuoteSpec.v`: UTF-8, plain text, reading a quoted string | induction over the loop of `Quote`, a rune at a time; the errors that have texts are those of C64, which hold the line, word or name they are about; that different errors have different texts: the words of each tell the kind, what is quoted can be read back |
| C73 | `BlobShare.v`: every call on slices, blobs and blob builders, in every order, from the empty world | an invariant of all reachable worlds, then induction over the later calls |
| C74 | `EncodeCost.v`: `Fprintf`, `Fprint`, `Fprintln` and `Sprintf` with the format strings of the code, appending to a pooled buffer and from there to a `bytes.Buffer`; growth, the sizes of pooled buffers and hints of foreign nodes are parameters | that counting changes no result: by computing the format strings; the bound: amortised, a potential for the room left in each buffer, by induction over the lists of a commit and the entries of a tree; the lower bound for long CIDs by induction over the parents |
| C75 | `Methods.v`: one row for each refusing method of the generated code; the errors of `mixins` and `ErrWrongKind` as records; `Builder.v` for the states of assemblers | every Go type and method is met by a case, for all values; a refused call leaves the assembler as it was, for all states; the names of AssignNull are `_refuted` |
| C76 | `Protos.v`: one row for each method, field and case of the generated code that has to do with prototypes and inner assemblers | induction on paths, in nodes (Nodes.v) and in assemblers; each step by a case for every type and key; the prototypes of values of structs and of built representations are `_refuted` |
| C77 | `FieldBits.v`: the constants, the 80 cases and the tests of Finish, one row each; numbers of N for Go's int | invariant: bit i is set when the key of field i was taken; induction on the keys offered; a refinement between the bits and the lists of `Builder.v` |
| C78 | `Wiring.v`: the statements of the 160 cases of AssembleEntry, key AssignString, AssembleValue and valueFinishTidy and of reset, one row each, and an interpreter on the states of `Builder.v`; pointing a part at another field has no such state and is an error of the interpreter | symbolic execution of each case for an arbitrary state; refinement to the functions of `Builder.v`; the shape of states as an invariant of all calls |
| C79 | `Code.v`: the statements of the 344 method bodies, of 10 tidying methods and 14 resets, one row each with its line in the source, and an interpreter on the states of `Builder.v`; the texts of panics are left out, AssignNode is modelled for nodes of the assembler's own type (others: C50), and what has no state in `Builder.v` is an error of the interpreter | symbolic execution of each body for an arbitrary state; refinement to `Builder.act`; induction on the calls for the states that can be reached |
| C80 | `Machine.v`: the tables of `Protos.v` (parts), `FieldBits.v` (bits), `Wiring.v` (cases) and `Code.v` (bodies) as one program, call by call along the parts. Not from the lines but as in `Builder.v`: where pointers lead, the set of bits (kept as a list; C77 relates the two), and the test that all required bits are set (the_bits_are_enough relates it to the test on the number) | refinement to `Builder.run` by induction on the way to the assembler and on the calls; C37's theorems carried over |
