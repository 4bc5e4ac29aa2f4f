{"id": "C01", "title": "Blob bytes survive decode then encode", "statement": "Parsing the git object \"blob <n>\\0<content>\" (n the decimal length of content) succeeds with a bytes node holding exactly the input, and Encode of that node writes exactly the input.", "quantifier": "every content of every length below 2^63, every way the reader splits the data", "why_tests_cant": "content is an unbounded byte string; corruption could depend on a particular length, byte value or chunk boundary", "anchors": ["blob.go:DecodeBlob", "blob.go:encodeBlob", "unmarshal.go:ParseObject", "marshal.go:Encode"]}
{"id": "C02", "title": "Tree bytes survive decode then encode", "statement": "Parsing a canonical git tree object (any number of \"<mode> <name>\\0<20 byte sha>\" entries with space-free modes, NUL-free and pairwise distinct names) succeeds, and Encode of the result writes exactly the input bytes.", "quantifier": "every list of entries, of any length, with any mode, name and sha bytes", "why_tests_cant": "a CID is the hash of the bytes, so one wrong byte for one tree makes the data unreachable; trees are unbounded", "anchors": ["tree.go:DecodeTree", "tree.go:DecodeTreeEntry", "tree.go:encodeTree", "tree.go:encodeTreeEntry"]}
{"id": "C03", "title": "Commit bytes survive decode then encode", "statement": "Parsing a canonical git commit object (tree, parents, author, committer, optional encoding, mergetags, optional PGP signature, other header lines, blank line, message, in that order) succeeds and Encode of the result writes exactly the input bytes.", "quantifier": "every commit: any number of parents, mergetags and extra headers, any names, any signature and message bytes", "why_tests_cant": "the header grammar is unbounded in several directions at once (parents, mergetags, signature lines, extra headers, message)", "anchors": ["commit.go:DecodeCommit", "commit.go:decodeCommitLine", "commit.go:decodeGpgSig", "tag.go:readMergeTag", "commit.go:encodeCommit"]}
{"id": "C04", "title": "Tag bytes survive decode then encode", "statement": "Parsing a canonical git tag object (object, type, tag, tagger, blank line, non-empty message) succeeds and Encode of the result writes exactly the input bytes.", "quantifier": "every tag: any target sha, type, name, tagger and non-empty message", "why_tests_cant": "names and messages are arbitrary byte strings", "anchors": ["tag.go:DecodeTag", "tag.go:encodeTag"]}
{"id": "C05", "title": "Nodes survive encode then decode", "statement": "For every well formed blob, tree, commit or tag node, parsing what Encode wrote gives back an equal node of the same type.", "quantifier": "every well formed node of the four object types", "why_tests_cant": "equality over an infinite set of nodes", "anchors": ["marshal.go:Encode", "unmarshal.go:ParseObject"]}
{"id": "C06", "title": "Encode writes a correct git header", "statement": "Whenever Encode succeeds on a tree, commit or tag node, the bytes written are the type name, a space, the decimal length of the rest, a NUL byte, and the rest.", "quantifier": "every node on which Encode succeeds, well formed or not", "why_tests_cant": "the length depends on every field of the node", "anchors": ["tree.go:encodeTree", "commit.go:encodeCommit", "tag.go:encodeTag"]}
{"id": "C07", "title": "Encode is injective on well formed nodes", "statement": "Two well formed objects (of the same or of different types) with the same encoding are equal, so distinct objects never share a CID unless SHA-1 collides.", "quantifier": "every pair of well formed nodes", "why_tests_cant": "it is a statement about pairs of unbounded values", "anchors": ["marshal.go:Encode"]}
{"id": "C08", "title": "Person lines: exact set that survives", "statement": "Parsing the author/committer/tagger line that was written for a person gives the same person back if and only if: the name is empty or does not start with a space and no space separated word of it starts with '<'; no word of the email but the first starts with '<' and no word but the last ends with '>'; the date and timezone contain no space; and a timezone is present only with a date.", "quantifier": "every person value: all byte strings for name, email, date and timezone, and every label", "why_tests_cant": "names and e-mails are arbitrary user data; the parser is a hand written scanner with index arithmetic", "anchors": ["personinfo.go:parsePersonInfo", "personinfo.go:GitString"]}
{"id": "C09", "title": "Person parsing never crashes and is total", "statement": "Parsing any line as a person returns a person or an error and never indexes out of range.", "quantifier": "every line of bytes", "why_tests_cant": "the scanner indexes parts and characters; the bug fixed in its comment was exactly such a crash on an unexpected input", "anchors": ["personinfo.go:parsePersonInfo"]}
{"id": "C10", "title": "Decoding never panics and always terminates", "statement": "ParseObject (and Decode into a fresh builder of the matching type) returns a node or an error for every input: it never panics and never loops forever, provided the reader does not stall forever and does not itself return bufio.ErrBufferFull (if it does, a signature header makes decoding loop for ever).", "quantifier": "every byte string, every terminal reader error, every split into reads", "why_tests_cant": "all inputs, including adversarial ones fetched from the network", "anchors": ["unmarshal.go:ParseObject", "unmarshal.go:Decode", "blob.go:DecodeBlob", "tree.go:DecodeTree", "commit.go:DecodeCommit", "tag.go:DecodeTag"]}
{"id": "C11", "title": "Decoding does not depend on how the reader delivers the data", "statement": "The result of decoding depends only on the bytes the reader delivers and its final error, not on how the bytes are split into Read calls nor on empty reads (fewer than 100 in a row). The exceptions, each shown by an example: a reader that returns data together with EOF when a line of exactly the buffer size ends in a carriage return, and a reader that returns the last bytes of a large blob together with an error other than EOF.", "quantifier": "every input, every sequence of chunk sizes, every internal buffer content at the start", "why_tests_cant": "the number of schedules is unbounded; buffer-boundary bugs show only for particular alignments", "anchors": ["unmarshal.go:ParseObject", "commit.go:DecodeCommit", "tag.go:DecodeTag", "tree.go:DecodeTreeEntry", "blob.go:DecodeBlob"]}
{"id": "C12", "title": "Header lines are never used after the reader overwrote them", "statement": "Every header line handed out by the buffered reader is consumed before the next read that may overwrite the buffer, so decoded fields never contain bytes of a later line.", "quantifier": "every input and every schedule of reads", "why_tests_cant": "overwriting depends on buffer alignment, which depends on the whole input so far", "anchors": ["commit.go:decodeCommitLine", "tag.go:readMergeTag", "tag.go:DecodeTag", "commit.go:decodeGpgSig"]}
{"id": "C13", "title": "Reader failures are never reported as success", "statement": "If the underlying reader ends with an error other than EOF, decoding a tree, commit or tag returns an error, and decoding a blob returns an error unless the whole declared body had been read before.", "quantifier": "every prefix of data delivered before the failure, every error, every schedule", "why_tests_cant": "a failure can occur at any point of any input", "anchors": ["unmarshal.go:ParseObject", "tree.go:DecodeTree", "commit.go:DecodeCommit", "tag.go:DecodeTag", "blob.go:DecodeBlob"]}
{"id": "C14", "title": "A temporary reader failure can be lost", "statement": "A reader error that is not repeated on the next read may be swallowed by the decoder, which then returns a node built from the data around the failure.", "quantifier": "existence over reader histories", "why_tests_cant": "needs a reader that fails once in the middle of a line and then continues", "anchors": ["commit.go:DecodeCommit", "tag.go:DecodeTag"]}
{"id": "C15", "title": "Unknown or missing object types are rejected", "statement": "Input with no space is rejected as unexpected end of file, and input whose first word is not blob, tree, commit or tag is rejected with an error, without reading the rest.", "quantifier": "every input", "why_tests_cant": "infinitely many inputs", "anchors": ["unmarshal.go:Decode", "unmarshal.go:ParseObject"]}
{"id": "C16", "title": "Blob size handling", "statement": "A blob header with a negative or non-numeric size is rejected; a body shorter than declared is rejected (EOF if empty, unexpected EOF otherwise); bytes after the declared size are ignored; the size is re-written in canonical decimal.", "quantifier": "every header string, every declared size, every body", "why_tests_cant": "declared and real sizes are independent unbounded values", "anchors": ["blob.go:DecodeBlob", "helper.go:readNullTerminatedNumber"]}
{"id": "C17", "title": "Declared sizes of trees, commits and tags have no effect", "statement": "For trees and commits, replacing the declared size by any other decimal integer does not change the result; for tags, replacing it by any NUL-free string does not change it.", "quantifier": "every body and every pair of declared sizes", "why_tests_cant": "relational property over all inputs", "anchors": ["tree.go:DecodeTree", "commit.go:DecodeCommit", "tag.go:DecodeTag"]}
{"id": "C18", "title": "Every link in a decoded object is a git SHA-1 CID", "statement": "Every link present in a node returned by ParseObject is a version 1 CID with codec git-raw and a 20 byte SHA-1 multihash, and the only absent links are a commit without tree line and a tag without object line.", "quantifier": "every input that parses", "why_tests_cant": "holds for all inputs; a wrong length hash would later crash the encoder", "anchors": ["util.go:shaToCid", "tree.go:DecodeTreeEntry", "commit.go:decodeCommitLine", "tag.go:DecodeTag", "tag.go:readMergeTag"]}
{"id": "C19", "title": "SHA and CID conversions are inverse", "statement": "Converting a hash to a CID succeeds exactly for 20 byte hashes, and converting the CID back gives the hash; distinct hashes give distinct CIDs; a CID whose hash is shorter than 20 bytes crashes the encoder and a longer one is silently cut to its last 20 bytes.", "quantifier": "every byte string as hash, every CID", "why_tests_cant": "2^160 hashes and all foreign CIDs", "anchors": ["util.go:shaToCid", "util.go:cidToSha", "util.go:sha"]}
{"id": "C20", "title": "Encoding a decoded object never fails except for one class of commits", "statement": "If ParseObject returned a node, Encode of that node succeeds, unless the object is a commit that has no author or no committer line, in which case Encode panics.", "quantifier": "every input that parses", "why_tests_cant": "all inputs", "anchors": ["unmarshal.go:ParseObject", "marshal.go:Encode", "commit.go:encodeCommit", "personinfo.go:GitString"]}
{"id": "C21", "title": "Tree entry names are unique", "statement": "A tree whose entries repeat a name is rejected; every tree that parses has pairwise distinct names.", "quantifier": "every tree input with any number of entries", "why_tests_cant": "the repeated entry can be at any distance", "anchors": ["tree.go:DecodeTree", "ipldsch_satisfaction.go:_Tree__ReprAssembler.AssembleEntry"]}
{"id": "C22", "title": "Tree lookup agrees with tree iteration", "statement": "In a decoded tree, looking up a name returns exactly the entry the iteration yields under that name, and fails exactly for names that iteration does not yield; iteration yields entries in file order, and Length is the number of entries.", "quantifier": "every tree of any size, every name, every growth history of the backing arrays", "why_tests_cant": "the lookup map holds pointers into a slice that is reallocated as it grows", "anchors": ["ipldsch_satisfaction.go:_Tree.LookupByString", "ipldsch_satisfaction.go:_Tree__MapItr.Next", "ipldsch_satisfaction.go:_Tree__ReprAssembler.AssembleEntry"]}
{"id": "C23", "title": "What becomes of a truncated tree", "statement": "Cutting a canonical tree object inside its body is reported as an error exactly when the cut is inside a hash; a cut inside a mode or a name, or right before a hash, is silently accepted and the partial entry is dropped. So the expectation that every truncation is detected is false.", "quantifier": "every tree and every cut point", "why_tests_cant": "every prefix of every tree", "anchors": ["tree.go:DecodeTree", "tree.go:DecodeTreeEntry"]}
{"id": "C24", "title": "Commit messages are preserved exactly", "statement": "In a commit or tag, everything after the first blank header line is the message, byte for byte, including NULs, carriage returns, blank lines and lines that look like headers.", "quantifier": "every message", "why_tests_cant": "arbitrary bytes of arbitrary length", "anchors": ["commit.go:decodeCommitLine", "tag.go:DecodeTag"]}
{"id": "C25", "title": "Parent order and multiplicity are preserved", "statement": "The parents of a decoded commit are the parent lines in order, with repetitions.", "quantifier": "every number of parents", "why_tests_cant": "unbounded list", "anchors": ["commit.go:decodeCommitLine", "commit.go:encodeCommit"]}
{"id": "C26", "title": "Commit header order is normalised on re-encoding", "statement": "Encode writes extra headers after the signature, whatever their original position, so a commit with an extra header before its signature, encoding or mergetag does not survive decode and encode.", "quantifier": "every commit with an out of order header", "why_tests_cant": "characterises which of all inputs survive", "anchors": ["commit.go:encodeCommit", "commit.go:decodeCommitLine"]}
{"id": "C27", "title": "Only PGP signatures are accepted", "statement": "A commit with a gpgsig header whose next line is not a single space or a Version/Comment header is rejected, and so is one without the PGP end line; in particular every SSH-signed commit is rejected.", "quantifier": "every signature text", "why_tests_cant": "all signatures", "anchors": ["commit.go:decodeGpgSig"]}
{"id": "C28", "title": "Long header lines are split", "statement": "A header line of a commit or tag at least as long as the reader's buffer is cut in pieces that are treated as separate lines; lines shorter than the buffer are never cut, and then the result does not depend on the buffer size.", "quantifier": "every line length and every buffer size", "why_tests_cant": "needs inputs larger than the buffer at every alignment", "anchors": ["commit.go:DecodeCommit", "tag.go:DecodeTag", "commit.go:decodeGpgSig", "tag.go:readMergeTag"]}
{"id": "C29", "title": "Tag loses its tagger-less and message-less forms", "statement": "A tag without tagger line is re-encoded with an invented line \"tagger  <>\", a tag with an empty message loses its blank line, and unknown tag header lines are dropped (and printed); such tags do not survive decode and encode.", "quantifier": "every tag of these forms", "why_tests_cant": "all such tags", "anchors": ["tag.go:DecodeTag", "tag.go:encodeTag"]}
{"id": "C30", "title": "Encode does not depend on the view of the node", "statement": "Encode of a typed blob, tree or tag and of its representation view write the same bytes; Encode of the representation view of any commit panics, so the expectation that Encode never depends on the view is false for commits.", "quantifier": "every node of the four types", "why_tests_cant": "all nodes", "anchors": ["marshal.go:Encode", "commit.go:encodeCommit", "ipldsch_satisfaction.go:_Commit__ReprAssembler.AssignNode"]}
{"id": "C31", "title": "Encode of generic nodes", "statement": "Encode of a generic bytes node writes it verbatim; of an empty map is an error; of any list panics; of a generic map goes to the tag encoder exactly when its first key is object, type, tag, tagger or text; such a map encodes exactly when it holds object, type, tag and message (in any order, other keys are ignored), as the typed tag does, without a tagger line when the tagger is missing or null; any other map encodes exactly when it holds a commit whose author and committer are the library's own PersonInfo nodes.", "quantifier": "every generic node", "why_tests_cant": "all data model values", "anchors": ["marshal.go:Encode", "tag.go:encodeTag"]}
{"id": "C32", "title": "Encode writes nothing when the node is bad, and reports write failures", "statement": "If Encode fails because of the node, no byte has been written; if the writer fails, Encode returns that failure; if Encode succeeds and the writer obeys the io.Writer contract, it received exactly the encoding. (A writer that takes fewer bytes without reporting an error goes unnoticed for blobs and for headers.)", "quantifier": "every node and every writer behaviour", "why_tests_cant": "all writers, failing at any point", "anchors": ["marshal.go:Encode", "tree.go:encodeTree", "commit.go:encodeCommit", "tag.go:encodeTag", "blob.go:encodeBlob"]}
{"id": "C33", "title": "DecodeBlock checks the CID prefix", "statement": "DecodeBlock succeeds only for CIDs with codec git-raw and 20 byte SHA-1 hash, and then gives the same result as ParseObject on the data; it does not check that the hash matches the data.", "quantifier": "every CID and every data", "why_tests_cant": "all CIDs", "anchors": ["helper.go:DecodeBlock"]}
{"id": "C34", "title": "The entry points agree", "statement": "ParseObject, ParseObjectFromBuffer, ParseCompressedObject (after decompression), DecodeBlock and Decode into a fresh builder of the right type give the same node or the same error.", "quantifier": "every input", "why_tests_cant": "relational over all inputs", "anchors": ["unmarshal.go:ParseObject", "unmarshal.go:Decode", "helper.go:ParseObjectFromBuffer", "helper.go:ParseCompressedObject"]}
{"id": "C35", "title": "Decoding into a builder of another type", "statement": "Decoding an object into a fresh builder of a different object type returns an error, except into a tree builder, where decoding a commit or tag that is otherwise accepted panics (which is what a traversal does when a commit's tree link names a commit). So the expectation that it never panics is false.", "quantifier": "every object and every builder type", "why_tests_cant": "all pairs of inputs and builder types", "anchors": ["ipldsch_satisfaction.go:_Tree__ReprAssembler.AssignNode", "ipldsch_satisfaction.go:_Tree__ReprAssembler.AssembleKey", "unmarshal.go:Decode"]}
{"id": "C36", "title": "Struct builders accept exactly complete, known, non-repeated fields", "statement": "Building a tag, tree entry, person or commit from a list of key/value pairs, in any order, succeeds exactly when every key is a field, no key repeats, every required field is present and every value has the right kind; the result is independent of the order; anything else is an error, except that a commit's author or committer given as a map that is not the library's own PersonInfo node panics.", "quantifier": "every sequence of key/value pairs", "why_tests_cant": "all permutations and all subsets of fields", "anchors": ["ipldsch_satisfaction.go:_Tag__Assembler", "ipldsch_satisfaction.go:_Tag__ReprAssembler", "ipldsch_satisfaction.go:_PersonInfo__ReprAssembler", "ipldsch_satisfaction.go:_TreeEntry__ReprAssembler", "ipldsch_satisfaction.go:_Commit__ReprAssembler"]}
{"id": "C37", "title": "Builder protocol", "statement": "A struct, map or list builder used in the documented order never panics, and any call out of order panics instead of corrupting the value under construction; a builder that was finished cannot be modified.", "quantifier": "every sequence of calls on a builder", "why_tests_cant": "all histories of calls", "anchors": ["ipldsch_satisfaction.go:_Tag__Assembler.AssembleKey", "ipldsch_satisfaction.go:_Tree__Assembler.AssembleKey", "ipldsch_satisfaction.go:_Commit_Link_List__Assembler.AssembleValue", "ipldsch_minima.go:maState"]}
{"id": "C38", "title": "Node iteration and lookup agree for structs", "statement": "Iterating over a commit, tag, person or tree entry yields every field exactly once, in schema order, with the value LookupByString returns; the representation omits exactly the absent optional fields and its Length is the number of pairs it yields.", "quantifier": "every node value", "why_tests_cant": "all combinations of present and absent fields", "anchors": ["ipldsch_satisfaction.go:_Commit__MapItr.Next", "ipldsch_satisfaction.go:_Commit__ReprMapItr.Next", "ipldsch_satisfaction.go:_Commit__Repr.Length", "ipldsch_satisfaction.go:_Tag__MapItr.Next"]}
{"id": "C39", "title": "List lookup by index", "statement": "Looking up an index of a parents, mergetag or other list returns the element inside the range and a not-exists error from the length upwards, and panics for every negative index. So the expectation that lookups never panic is false.", "quantifier": "every list and every integer index", "why_tests_cant": "all lists and indices", "anchors": ["ipldsch_satisfaction.go:_Commit_Link_List.LookupByIndex", "ipldsch_satisfaction.go:_Tag_List.LookupByIndex", "ipldsch_satisfaction.go:_String_List.LookupByIndex"]}
{"id": "C40", "title": "Decoding reads no further than it needs", "statement": "DecodeBlob consumes exactly the header and the declared body from the buffered reader, so that objects can be read one after the other; DecodeTreeEntry consumes exactly one entry.", "quantifier": "every stream following the object", "why_tests_cant": "all continuations", "anchors": ["blob.go:DecodeBlob", "tree.go:DecodeTreeEntry"]}
{"id": "C41", "title": "Decode then encode is stable for normalised commits and tags", "statement": "If the value decoded from a commit or tag is well formed (it has a tree or object link, its persons survive as in C08, and no text in it would be read differently when written), encoding it and decoding again gives the same value, so a second decode and encode changes nothing; for trees and blobs this holds always. Without the condition it is false.", "quantifier": "every input that parses", "why_tests_cant": "all inputs", "anchors": ["unmarshal.go:ParseObject", "marshal.go:Encode"]}
{"id": "C42", "title": "Header carriage returns are lost", "statement": "Carriage returns at the end of a header line are dropped by decoding, so a canonical commit or tag with one added to a header line does not survive decode and encode; messages keep theirs.", "quantifier": "every header line", "why_tests_cant": "all lines", "anchors": ["commit.go:DecodeCommit", "tag.go:DecodeTag"]}
{"id": "C43", "title": "Memory used for a blob is bounded by the data received", "statement": "While decoding a blob, the buffer never grows beyond a constant factor of the bytes really received, however large the declared size.", "quantifier": "every declared size and every amount of data delivered", "why_tests_cant": "all declared sizes, including adversarial ones up to 2^63-1", "anchors": ["blob.go:DecodeBlob"]}
{"id": "C44", "title": "Exactly which byte strings parse, and what they stand for", "statement": "ParseObject succeeds on a byte string with a given node exactly when the byte string has that node as meaning in the written-down grammar of git objects as this library reads them (type word, size, then lines, blocks, entries); no byte string has two meanings.", "quantifier": "every byte string and every node", "why_tests_cant": "a test can only sample accepted and rejected inputs; the set is infinite", "anchors": ["unmarshal.go:39", "commit.go:45", "tag.go:20", "tree.go:14", "blob.go:13"]}
{"id": "C45", "title": "Exactly which person lines parse", "statement": "parsePersonInfo accepts a line exactly when it has the written-down shape (label, name words, an email between angle brackets, and possibly a date and a zone), and the fields are the parts of that shape.", "quantifier": "every byte string", "why_tests_cant": "the accepted set is infinite and includes surprising members", "anchors": ["personinfo.go:9"]}
{"id": "C46", "title": "Exactly the canonical commits and tags survive", "statement": "Among commits and tags whose header lines end with a newline and fit the buffer, decode followed by encode gives the body back exactly when it is in canonical form: the lines in git's order, lower case hashes, persons that survive.", "quantifier": "every sequence of header lines", "why_tests_cant": "needs the whole set of non-surviving inputs", "anchors": ["commit.go:165", "tag.go:127"]}
{"id": "C47", "title": "A header line of exactly the buffer size ends the header", "statement": "In a commit, a header line whose length is the buffer size is read as a line followed by an empty line, so what follows it becomes the message.", "quantifier": "every buffer size and every position of the line", "why_tests_cant": "depends on one exact length", "anchors": ["commit.go:30"]}
{"id": "C48", "title": "Walking a decoded object meets exactly the hashes in its text", "statement": "A walk through all iterators of a decoded object meets, in order, one link per hash in its text: for a commit the tree, the parents and the objects of the merge tags; for a tag its object; for a tree one link per entry in file order; for a blob none. The walk over the representation meets the same links.", "quantifier": "every decodable object, any number of parents, merge tags and entries", "why_tests_cant": "a graph walker that misses or repeats a link loses objects silently; sample graphs cannot cover all shapes", "anchors": ["commit.go:45", "tag.go:20", "tree.go:14", "ipldsch_satisfaction.go:345"]}
{"id": "C49", "title": "Paths found by walking resolve, and nothing else does", "statement": "Following a textual path one segment at a time reaches a node of a decoded object exactly when iteration finds that node under the same keys, where positions in lists may be written with any numeral of the same value.", "quantifier": "every decodable object, every path of any length, both views", "why_tests_cant": "the set of paths is unbounded", "anchors": ["ipldsch_satisfaction.go:341", "ipldsch_satisfaction.go:2116"]}
{"id": "C50", "title": "Assigning a whole node is making its calls one by one", "statement": "AssignNode of any node to a fresh builder, typed or representation, that is, the sequence of AssembleKey, AssembleValue and Finish calls on the builder and its children that the generated code makes, succeeds, fails or panics exactly as C36 describes and builds that value; a map with entries assigned to a tree builder panics. datamodel.Copy begins the map first: copying a map into a tree builder makes the tree of its entries without panic (and without a check for repeated names), so assigning and copying disagree; copying a typed commit or tag, absent fields skipped, gives it back; assigning or copying the representation of a commit that has an author or committer always panics.", "quantifier": "every node of any kind, both views, every sequence of entries and elements at any depth", "why_tests_cant": "unbounded maps and lists in every order, with every kind of value in every place; the pointers and states of nested assemblers after each call", "anchors": ["ipldsch_satisfaction.go:_Commit__Assembler.AssignNode", "ipldsch_satisfaction.go:_Tree__Assembler.AssignNode", "ipldsch_satisfaction.go:_PersonInfo__Assembler.AssignNode", "ipldsch_satisfaction.go:_Commit__ReprMapItr", "ipldsch_satisfaction.go:_Tag_List__Assembler.AssignNode"]}
{"id": "C51", "title": "Links are hashes of the object, and loading checks them", "statement": "Through a link system with the registered codec: the link of a stored or computed node is the CID (version 1, codec 0x78, SHA-1) of exactly the bytes Encode writes, which are the bytes handed to the storage; storing fails or panics when Encode does. What loads under such a link was decoded from bytes that have the hash in the link: all bytes of the block, or for blobs possibly a beginning that holds the blob. For trees, commits and tags the outcome depends only on the bytes of the block: the decoded node or error if the hash matches, otherwise a mismatch; a panic of the builder comes before the check. Well formed nodes are loaded again from any source of their bytes. Links with another codec find no decoder; trusted storage is decoded without any check; storage that fails before its end loads no tree, commit or tag, and its failure is the answer. Two stronger claims fail: a link with a shortened hash loads (an empty one loads any object) although DecodeBlock refuses it, and a block with data after a blob loads or not depending on how the storage cuts it in pieces, even under the hash of the blob alone.", "quantifier": "every node, every hash function with 20 byte results, every block and every way to hand it out in pieces, every buffer size, builder and link", "why_tests_cant": "the hash sees what the buffered reader pulled, which depends on the chunking of the storage; tests use one chunking and matching hashes", "anchors": ["init.go:init", "unmarshal.go:Decode", "marshal.go:Encode", "blob.go:DecodeBlob", "helper.go:DecodeBlock", "git_test.go:67"]}
{"id": "C52", "title": "Exactly which objects come back byte for byte", "statement": "For input of any length and lines of any length: decoding accepts the input and encoding the result gives exactly the input again if and only if the input is a blob; a tree; a commit in git's own layout (headers in git's order, lower case hashes, persons with no surplus, messages of merge tags and signatures well delimited) all of whose lines are shorter than the read buffer, except that type, tag and tagger lines of merge tags may fill it exactly; or a tag in git's layout with lines shorter than the buffer, except that the tagger line may fill it exactly if the tag has no message; with the plain decimal size in front. Nothing else survives, and what survives through one buffer survives through every larger one.", "quantifier": "all inputs, all buffer sizes of at least 64 bytes, all chunkings", "why_tests_cant": "both directions of an equivalence over unbounded inputs, including lines at and beyond the end of the buffer", "anchors": ["unmarshal.go:ParseObjectFromBuffer", "commit.go:DecodeCommit", "tag.go:DecodeTag", "tree.go:DecodeTree", "blob.go:DecodeBlob", "marshal.go:Encode"]}
{"id": "C53", "title": "Exactly the surviving objects keep their links", "statement": "The link computed through the link system for a decoded object is the hash of the bytes it was decoded from if and only if the object is one of those of C52, unless the hash function collides on these bytes and the encoded ones.", "quantifier": "all inputs, buffer sizes, chunkings and hash functions with 20 byte results", "why_tests_cant": "tests compute the links of objects made by git only", "anchors": ["init.go:init", "unmarshal.go:ParseObjectFromBuffer", "marshal.go:Encode", "git_test.go:67"]}
{"id": "C54", "title": "The typed side of the nodes agrees with the generic side", "statement": "Every field accessor gives what LookupByString gives under the name of the field, and panics on a nil pointer. An optional field exists exactly if the commit has it, is never null, and Must panics exactly if it does not exist. Of IsNull, IsAbsent and Exists exactly one holds in every state of a Maybe, null included, AsNode agrees with them, and all panic on a nil pointer. Typed iterators yield the items of the generic ones in order, and past the end answer -1 and nil for ever. Typed lookups give nil exactly where the generic ones say that nothing is there and panic exactly where they do. LookupMaybe of a tree always answers whether the entry exists. Refuted for lists: LookupMaybe past the end gives a nil pointer, so asking it panics.", "quantifier": "all commits, tags, persons, entries, trees, lists, positions and keys", "why_tests_cant": "the tests use a few accessors on decoded objects only", "anchors": ["ipldsch_satisfaction.go:216-242", "ipldsch_satisfaction.go:2017-2057", "ipldsch_satisfaction.go:6708-6749"]}
{"id": "C55", "title": "A node assigned to a builder of its own prototype is rebuilt", "statement": "For every typed node n, n.Prototype().NewBuilder() given n builds n again. Its representation, given to a builder of the representation's prototype, builds n, except that commits with an author or committer and trees with entries panic.", "quantifier": "all nodes of the generated types", "why_tests_cant": "no test assigns representations, and the outcome depends on which optional fields are present", "anchors": ["ipldsch_satisfaction.go:441", "ipldsch_satisfaction.go:1222", "ipldsch_satisfaction.go:6873", "ipldsch_satisfaction.go:7207"]}
{"id": "C56", "title": "Exactly the surviving nodes are loaded as they were stored; links lead to what was stored", "statement": "A node stored through a link system is loaded as it was if and only if it is one of those of C52. In a storage that has every object under its hash, and in which every link leads to an object of the type the schema asks for, every load of every walk along links finds the object stored there (a builder for any node is given the bytes of a blob instead of the blob); what is loaded is stored again under the same link.", "quantifier": "all nodes, hash functions with 20 byte results, storages, ways to hand out blocks, buffer sizes of at least 64 bytes, walks of any length", "why_tests_cant": "the tests follow the links of one repository made by git", "anchors": ["init.go:init", "marshal.go:Encode", "unmarshal.go:Decode", "ipldsch_satisfaction.go:2003-2005", "ipldsch_satisfaction.go:8580-8582", "git_test.go:160"]}
{"id": "C57", "title": "Writing and reading again and again settles, after exactly known rounds", "statement": "A person, tag or commit that was read, written and read again, and so on, stops changing: in every round the words of an email but the first lose one '<' in front, a timezone without a date becomes the date, and unknown lines that start with a space right after a merge tag become its message. The number of rounds is the largest of the numbers these take; no fixed number is enough for all persons. Commits and tags are those with a tree or object and with lines the buffer holds. A commit whose last header line is exactly as long as the buffer never settles: it gets one more newline in front of its message every time.", "quantifier": "all persons read from any line, all commits and tags read from any input, numbers of rounds, buffer sizes of at least 64 bytes, readers", "why_tests_cant": "the tests write and read objects once, and no number of rounds is enough for all", "anchors": ["personinfo.go:parsePersonInfo", "personinfo.go:GitString", "commit.go:encodeCommit", "tag.go:readMergeTag", "tag.go:encodeTag"]}
{"id": "C58", "title": "Encode of any node implementation; failures of the node are reported", "statement": "Encode depends on a node only through the answers of its methods: two nodes of any implementations that answer alike are encoded alike. If methods or iterators of a node fail somewhere, Encode either does exactly what it would without the failure, or reports one of these errors (for a commit, wrapped) and writes nothing. One failure is swallowed: a tag whose tagger cannot be looked up is written without its tagger, and what is written is read as another tag.", "quantifier": "all implementations of ipld.Node with iterators that end and answers that do not change, all patterns of failures, all writers", "why_tests_cant": "the tests use the generated nodes and basicnode, whose methods do not fail", "anchors": ["marshal.go:11-51", "tag.go:127-191", "tree.go:78-132", "commit.go:165-209", "ipldsch_satisfaction.go:1330-1367"]}
{"id": "C59", "title": "Decode hands what it found to the assembler in one call", "statement": "Decode with any assembler does what ParseObject does with the same reader and, only if that succeeds, makes exactly one call on the assembler, AssignBytes with the whole object for a blob and AssignNode with the decoded node otherwise, and returns the outcome of that call. On any error before it the assembler is untouched.", "quantifier": "all assemblers, readers and inputs", "why_tests_cant": "the tests use builders of the matching type", "anchors": ["unmarshal.go:12-37", "unmarshal.go:39-75", "blob.go:43", "tree.go:43", "commit.go:42", "tag.go:72"]}
{"id": "C60", "title": "The generated code implements the schema it is generated from", "statement": "Every typed node and its representation conform to their type in the schema of gen/gen.go, exactly when their links are links and the names of a tree are distinct; fields come in the order of the schema, and the representation leaves out optional ones only. The builders of all types but Commit and Tree accept exactly the data that conforms to the schema. The builder of commits accepts conforming data exactly if the author and committer are the library's own nodes, and panics otherwise; the builder of trees panics for all conforming data but typed trees and empty maps. Every decoded object conforms to the schema, except that the tree of a commit or the object of a tag can be a nil link.", "quantifier": "all typed values, all data given to a builder with AssignNode, all readers and inputs", "why_tests_cant": "values and maps are unbounded; the tests build a few values in the order of the schema", "anchors": ["gen/gen.go:21-66", "ipldsch_types.go", "ipldsch_satisfaction.go"]}
{"id": "C61", "title": "ParseCompressedObject reads exactly the zlib format", "statement": "The decompressor that ParseCompressedObject uses delivers a text and then EOF exactly if the input begins with a zlib stream (RFC 1950 and 1951, any kind of blocks) of that text; every text has such streams, a stream stands for one text and does not continue another. Parsing a zlib stream, whatever follows it, has the same result as parsing the text with ParseObjectFromBuffer, so that an object that is written, compressed and parsed comes back. The exception is a commit or tag whose last line ends in a carriage return and fills the buffer, because the decompressor reports EOF together with the last bytes. Inputs that do not begin with a zlib header are refused. Parsing never panics and always ends.", "quantifier": "all inputs, all ways the decompressor can cut its output into pieces, all buffer sizes", "why_tests_cant": "compressors have endless ways to write a text; the tests use the streams of one program", "anchors": ["helper.go:29-38", "unmarshal.go:39-75", "commit.go:19-43", "tag.go:20-73"]}
{"id": "C62", "title": "Damage to compressed objects is noticed, except in blobs", "statement": "If ParseCompressedObject returns a tree, commit or tag then the input begins with a whole zlib stream with the right checksum; a wrong checksum and a stream that breaks off are errors. This does not hold for blobs: a blob whose content is smaller than the buffer of the reader is returned without error whatever comes after the compressed data, a wrong checksum, a part of one, or nothing. Larger blobs are returned whole or the decompressor's error is reported, depending on how the data is delivered.", "quantifier": "all inputs, all ways the decompressor can cut its output into pieces", "why_tests_cant": "the tests parse undamaged objects", "anchors": ["helper.go:29-38", "blob.go:13-44", "tree.go:14-45", "commit.go:19-43", "tag.go:20-73"]}
{"id": "C63", "title": "Platforms with a smaller int refuse large declared sizes and nothing else", "statement": "Where Go's int has fewer than 64 bits, ParseObject accepts exactly the objects it accepts with 64 bits whose declared size, if they are a blob, tree or commit, fits the int, and returns the same node for them; declared sizes outside the int are answered with strconv's range error. Tags are not affected. Nothing panics, and what Encode writes for a well formed node is read back if the body is shorter than the largest int.", "quantifier": "all widths from 2 to 64 bits, all inputs however delivered", "why_tests_cant": "the tests run on one platform", "anchors": ["helper.go:45-53", "blob.go:13-44", "tree.go:14-45", "commit.go:19-43", "unmarshal.go:39-75"]}
{"id": "C64", "title": "Every refusal names what is wrong with the text", "statement": "If ParseObject refuses a text, its error says what is wrong at the first place where the text is wrong, and the text is wrong there in exactly that way: no or an unknown type word; a size that is missing, no number, out of range or negative; a blob shorter than its size; a tree entry with a hash that breaks off, or a name that comes twice; in a commit or tag the first line with a bad hash or person, a signature with a wrong first line or no end, a merge tag message with no end. Every text is either accepted or refused, never both, and for one reason only. Errors other than EOF and unexpected EOF stay whatever bytes are appended, for commits and tags once the text ends with a newline; without that newline they can go away.", "quantifier": "all texts, however delivered, and all buffer sizes of at least 64", "why_tests_cant": "there is no end of wrong texts, and a test of one error says nothing about the others", "anchors": ["unmarshal.go:12-75", "helper.go:45-53", "blob.go:13-44", "tree.go:14-76", "commit.go:19-163", "tag.go:20-125", "personinfo.go"]}
{"id": "C65", "title": "What decoding prints", "statement": "ParseObject writes to the standard output only when it decodes a tag: for each header line it does not know the text \"unhandled line:  \", the line as it is, and a newline, in order, up to the end of the data, the empty line before the message, or the first line that makes it fail. The result is the same as without printing. Any bytes but a newline can be put on the output this way by whoever made the tag.", "quantifier": "all texts, however delivered, whatever error ends them; all buffer sizes of at least 64", "why_tests_cant": "a test sees the output of its own tags; nothing says that others print nothing or what they print before they fail", "anchors": ["tag.go:20-73", "unmarshal.go:39-75"]}
{"id": "C66", "title": "Decoding copies a bounded number of bytes for each byte of its input", "statement": "However large the object, ParseObject copies at most 2B+128 bytes for each byte of its input, plus 3000, where B is the size of the reader's buffer: signatures, messages, lists of parents, tags, entries and unknown lines are not copied again with every line that is added to them. For trees and blobs it is 128 bytes whatever B is. It copies no less than the bytes of the node it returns. The factor B is needed: the name in a person line is copied once for each of its words.", "quantifier": "all texts, accepted or not, however delivered, whatever error ends them; all buffer sizes of at least 64; all ways in which slices, builders and buffers grow by a quarter at least, Go's among them; all sizes of the reads that fill buffers", "why_tests_cant": "a test that times some inputs says nothing about others, and a quadratic cost shows only with inputs larger than those of the tests", "anchors": ["blob.go:13-44", "tree.go:14-76", "commit.go:19-163", "tag.go:20-125", "personinfo.go:9-74", "util.go:17-26"]}
{"id": "C67", "title": "What becomes of commits and tags that break off", "statement": "If a commit or tag that git wrote is cut at any byte, decoding what is left gives what the tables of CutSpec.v say for that place. The cut is an error in the type, the size, a hash, a person before the '>' that ends the email, the signature unless an end line is left of it, the message of a merge tag or right behind it, or behind the space that begins a line of a merge tag. In a keyword, behind the '>', in other values, between lines and in the message it is not noticed: the last line counts as it is, and what is lost is missing in the value. No proper beginning of a commit with a message, or of a tag, stands for the same value as the whole; a commit without a message can lose its blank line unnoticed.", "quantifier": "all commits and tags in git's order whose lines fit the buffer; all proper beginnings; all readers that deliver them; all buffers of at least 64 bytes", "why_tests_cant": "the result depends on the field, the position in it and the fields before it; tests cut a few objects at a few places", "anchors": ["commit.go:19-163", "tag.go:20-125", "personinfo.go:9-74", "util.go:17-26", "unmarshal.go:39-75"]}
{"id": "C68", "title": "Decoding again and again with one builder", "statement": "If one builder of this package is given to Decode for one reader after the other, then each time there is no object in the reader the error is that of the object and the builder is not touched; the first object of the builder's own type succeeds, all later ones of its type panic, and no object of another type ever succeeds. Build then gives the first object of the builder's type for tags and blobs, whatever was decoded before and after it. It is not so for trees and commits: if neither commit nor tag came before the tree, the first one after it leaves an entry \"tree\" or \"object\" in the tree, without a mode and without a hash; and if the first tag or non-empty tree before the commit is a tree whose first entry has the name \"author\" or \"committer\", then the next tag or tree after the commit makes that person of the commit a nil pointer. Otherwise they stay, too.", "quantifier": "all sequences of readers of any kind, holding anything; builders of all four types, typed and representation", "why_tests_cant": "what happens depends on everything the builder was given before, and the tests use each builder once", "anchors": ["unmarshal.go:12-37", "tree.go:14-44", "commit.go:19-42", "tag.go:20-73", "blob.go:13-44", "ipldsch_satisfaction.go:185-199", "ipldsch_satisfaction.go:563-653", "ipldsch_satisfaction.go:5196-5233", "ipldsch_satisfaction.go:6885-7018"]}
{"id": "C69", "title": "A tree given to a builder shares its map and its array with it", "statement": "AssignNode of a tree on a new tree builder copies the slice and the map, not what they hold. Whatever is called on the builder afterwards, the given tree keeps its names and its entries when it is iterated over, and trees on other arrays keep theirs; but its lookups are those of the builder's tree, and only the names that the builder's tree has beyond the given one can give another answer than before. If the builder was asked for a key before it was given the tree, the last entry of the tree can be overwritten as well, and no other. A tree that is apart from all trees given to a builder, with another array and another map, stays as it was for iteration and for lookups, whatever is called. So a tree that nobody called can be changed: AssignNode of another map on the same builder changes what it looks up, with no error and no panic; and two builders given the same tree write to the same spare cell.", "quantifier": "all trees that fit their memory, every tree DecodeTree leaves among them, all sequences of calls before and after on a new builder, all growths of arrays", "why_tests_cant": "no test looks at a tree again after giving it to a builder, and whether two trees share a cell depends on the capacity left", "anchors": ["ipldsch_satisfaction.go:6901-6930", "ipldsch_satisfaction.go:6966-6998", "ipldsch_satisfaction.go:7002-7119", "ipldsch_satisfaction.go:6791-6801", "ipldsch_satisfaction.go:6829-6838", "ipldsch_types.go:127-134"]}
{"id": "C70", "title": "In a tree made with a builder, a lookup finds the last entry of the name", "statement": "Whatever calls are made on a new tree builder, in whatever order, once it has a map (after BeginMap, or AssignNode of a tree for which this holds) and while no key is half finished, looking a name up in the builder's tree gives the last entry that iteration gives under this name, and is not found exactly if iteration gives none. If AssembleKey is not called, and no tree with a name twice is assigned, no name comes twice. Trees of DecodeTree are such trees. Without a map it is not so: after a recovered panic a tree can be finished that was never begun, whose entries are iterated over and never found.", "quantifier": "all sequences of calls on a new tree builder, all memories and trees in them, all growths of arrays", "why_tests_cant": "the map points into arrays that appending leaves behind; which one depends on the calls and on how arrays grow", "anchors": ["ipldsch_satisfaction.go:6791-6801", "ipldsch_satisfaction.go:6829-6838", "ipldsch_satisfaction.go:6916-6930", "ipldsch_satisfaction.go:6966-6998", "ipldsch_satisfaction.go:7002-7119", "ipldsch_types.go:127-134"]}
{"id": "C71", "title": "Encode of nodes whose answers change, or whose iterators never end", "statement": "Whatever the methods of a node answer, and however the answers change from call to call: a call of Encode that ends has either written nothing and failed or panicked, or has done exactly what Encode does with some blob, tree, commit or tag of this package, or a tag without a tagger. On a node that always answers the same it is the Encode of C58. It goes on for ever only with an iterator that never says it is done: if Encode is still at work after some number of rounds of a loop, one iterator has given that many times. An iterator that never ends does keep it going.", "quantifier": "all implementations of ipld.Node, with any state that any call may change, all states, all writers, all numbers of rounds", "why_tests_cant": "a test uses nodes whose answers do not change, and cannot try all changes, nor wait for ever", "anchors": ["marshal.go:11-51", "tag.go:127-191", "tree.go:78-132", "commit.go:165-209", "blob.go:46-53", "ipldsch_satisfaction.go:1330-1367", "ipldsch_satisfaction.go:2268-2298"]}
{"id": "C72", "title": "Messages of decoding errors are one plain line and show what was refused", "statement": "Whatever bytes are decoded, the text of the error is valid UTF-8 without control characters or line breaks, also where it quotes the input. A person line, an object type or a number that is refused is quoted in it so that it can be read back byte for byte: after the words of the message comes a quoted string that stands for exactly the refused bytes, so different refused types have different messages. Two errors with the same text are the same error, in the kind and in what they quote. Every refusal of an object has such a text, and whatever its message quotes stands, byte for byte, in what was decoded.", "quantifier": "all inputs through all buffered readers that deliver them, all lines, all notions of printable runes that leave out the control characters of ASCII", "why_tests_cant": "a test shows the messages of a few inputs; invalid UTF-8, quotes and control characters at any place are the cases that matter", "anchors": ["personinfo.go:9-13", "personinfo.go:22-25", "personinfo.go:42-45", "unmarshal.go:33-34", "unmarshal.go:66-67", "util.go:17-20", "blob.go:18-20", "commit.go:141", "helper.go:45-53"]}
{"id": "C73", "title": "Blobs share their bytes with whoever gave them or asked for them, and with nobody else", "statement": "The bytes of a blob change with a call exactly if the call writes, through a slice the client has, into the array the blob is a slice of, at one of its places, and then in that place only. The slice given to FromBytes or AssignBytes, the slices AsBytes, Bytes and Encode hand out, and every blob made by AssignNode of a blob stay the bytes of the blob for ever. A blob that was decoded shares nothing with its input: it stays what was read, and is written as that, until its bytes, or those of a blob that shares them, are asked for. It is not true that blobs never change.", "quantifier": "every sequence of calls on slices, blobs and blob builders, every growth of arrays, every buffer size", "why_tests_cant": "all interleavings of writes, copies, builders and resets", "anchors": ["blob.go:DecodeBlob", "blob.go:encodeBlob", "ipldsch_satisfaction.go:11-17", "ipldsch_satisfaction.go:98-100", "ipldsch_satisfaction.go:110-198", "helper.go:41-43"]}
{"id": "C74", "title": "Encoding copies a bounded number of bytes for each byte it writes", "statement": "Encoding a node costs time linear in the output: the number of bytes copied by the printing calls, the growth of buffers and slices, the conversions of links and strings and the final writes is at most (32+L) times the number of bytes of the encoded object, where L is the length of the longest CID in the node; for objects that were decoded it is at most 56 times. This holds for nodes of this package and for nodes of other implementations, and for writers that fail. Blobs are handed to the writer without a copy. CIDs count with their whole length although 20 bytes of them are written: there are commits of any number of parents whose encoding copies any number of bytes for each parent.", "quantifier": "all nodes that can be encoded, all writers, all growth policies that add at least a quarter, all sizes of pooled print buffers", "why_tests_cant": "a test can time a few objects; a quadratic path shows only for shapes and sizes nobody tried", "anchors": ["commit.go:165-209", "tag.go:127-191", "tree.go:78-132", "blob.go:46-54", "marshal.go:11-51", "personinfo.go:76-89", "util.go:28-63"]}
{"id": "C75", "title": "Calls of the wrong kind are refused, and the error tells the type, the method and the kinds", "statement": "A node of this package answers a lookup or a read exactly when its kind has it: maps and lists are looked up in and walked and have a length, a scalar is read as what it is, nothing is null or absent. Every other call gives a wrong kind error that tells the name of the type (with .Repr for the representation), the method, the actual kind, and only kinds for which the method would do. The same holds for the assemblers of all types and of the keys of structs, and the refused call changes nothing in them; AssignNode of a map or list tells the kind of the node given, of a scalar it passes on the error of that node. One thing is wrong: the error of AssignNull of the assemblers of representations tells a name that no type has, such as ipldgit.Commit.Repr.Repr.", "quantifier": "all nodes of the 22 node types, all calls with all arguments, all assemblers of the 14 types in all states, all nodes given to AssignNode", "why_tests_cant": "there are 422 such methods in the generated code, each with its own copy of a name and a kind; the tests of the repository call hardly any of them", "anchors": ["ipldsch_satisfaction.go:56-106", "ipldsch_satisfaction.go:138-196", "ipldsch_satisfaction.go:292-440", "ipldsch_satisfaction.go:584", "ipldsch_satisfaction.go:923-1037", "ipldsch_satisfaction.go:1298-1311", "ipldsch_satisfaction.go:2500", "ipldsch_satisfaction.go:8113"]}
{"id": "C76", "title": "Nodes and assemblers tell their prototypes by the schema, and what is inside a node could be built where it is", "statement": "Every node tells the prototype of its type, typed nodes the typed one and representations that of the representation; the builder of a prototype has the assembler of the same type and view, which tells the same prototype. An assembler hands out, for every key or index, the assembler of what the schema puts there, seen the same way, whether asked by AssembleEntry or by AssembleKey and AssembleValue, a different one for each field, and refuses other keys. So for every path into every node, the node found tells the same prototype as the assembler at the end of the path. Keys tell to be strings, lists and trees tell the prototype of their values. Two things are not as one would expect: the assemblers of structs panic when asked for the prototype of a value, for every field; and the prototype of a representation builds typed nodes, which tell another prototype.", "quantifier": "all nodes of the 22 node types, all paths of any length, all assemblers of the 14 types and both views, all keys", "why_tests_cant": "the paths into nodes have no bound, and no test of the repository asks for a prototype of a part, a key or a value; each of the many methods is a separate generated copy", "anchors": ["gen/gen.go:22-66", "ipldsch_satisfaction.go:441", "ipldsch_satisfaction.go:447", "ipldsch_satisfaction.go:477-485", "ipldsch_satisfaction.go:601", "ipldsch_satisfaction.go:694-802", "ipldsch_satisfaction.go:821-919", "ipldsch_satisfaction.go:1035", "ipldsch_satisfaction.go:1222", "ipldsch_satisfaction.go:1238", "ipldsch_satisfaction.go:2346", "ipldsch_satisfaction.go:7120-7125", "ipldsch_satisfaction.go:8321"]}
{"id": "C77", "title": "The bits of a struct assembler are the set of fields it was given", "statement": "The assemblers of structs remember the fields they were given in the bits of a number. Whatever keys are offered, in any order, by AssembleEntry or by the assembler of keys: a key that no field has is refused as invalid, with the name of the type; a key that was taken before is refused as repeated, with that key; every other is taken, so none is taken twice. Finish succeeds exactly when all required fields were given; otherwise its error names exactly the required fields that are missing, in the order of the schema. The number never needs more than nine bits, and is the set that the model of the builders (C37) keeps.", "quantifier": "all sequences of keys of any length, both ways to offer each key, the 4 struct types and both views", "why_tests_cant": "there are 80 cases with their own bit tests and names and 32 tests for missing fields, and any order of keys may meet them; the tests of the repository give each field once, in one order", "anchors": ["gen/gen.go:26-64", "ipldsch_satisfaction.go:278-288", "ipldsch_satisfaction.go:502-513", "ipldsch_satisfaction.go:709-801", "ipldsch_satisfaction.go:876-913", "ipldsch_satisfaction.go:941-1020", "ipldsch_satisfaction.go:1471-1568", "ipldsch_satisfaction.go:1662-1684", "ipldsch_satisfaction.go:7862-7875"]}
{"id": "C78", "title": "Each case of the struct assemblers handles its own field", "statement": "The 8 assemblers of structs have a case for each field in AssembleEntry, in AssignString of the key assembler, in AssembleValue and in valueFinishTidy, and a line for each field in reset. In whatever state the assembler is: the case of a field in AssembleEntry notes that field's number and touches the part of that field only, which it points at that field of the struct, or at the value an optional field has already; without a struct it panics. The case of AssembleValue with that number does the same, the case of valueFinishTidy with it looks at the flag of that field and puts the value of its part in that field, and reset resets every part. So all of them do what the one model for all structs (C37, C53) does.", "quantifier": "the 4 struct types, both views, all fields, all states of the assembler and its parts, all values of the struct", "why_tests_cant": "160 cases are generated apart, and a wrong part or field in one of them shows only when that field is built in that way and in that order", "anchors": ["ipldsch_types.go:60-70", "ipldsch_satisfaction.go:468-500", "ipldsch_satisfaction.go:604-692", "ipldsch_satisfaction.go:693-802", "ipldsch_satisfaction.go:821-875", "ipldsch_satisfaction.go:941-1020", "ipldsch_satisfaction.go:1269-1281", "ipldsch_satisfaction.go:1371-1454"]}
{"id": "C79", "title": "All copies of the assemblers' methods behave alike", "statement": "Each of the 20 generated assemblers has its own copy of every method. Whatever was called on a builder before, a call of any method of any of its assemblers does what the one model of its kind of assembler (string, link or bytes; list; tree; struct) does, on which the promises about builders (C37, C50, C53, C55) rest: the same verdict (no error, error or panic), the same value and the same state afterwards. For structs, AssembleEntry, AssembleValue and AssignString of a key come to the cases of the fields (C78) exactly when the model does. The key assemblers of structs refuse everything but strings and change nothing, and reset of lists, trees and scalars puts the state of the assembler and of its parts back to the beginning.", "quantifier": "all assemblers, both views, all methods and arguments, all states reached by any sequence of calls, all values being built", "why_tests_cant": "344 methods are generated apart, and a slip in one of them shows only with that assembler, in that state", "anchors": ["ipldsch_satisfaction.go:137-211", "ipldsch_satisfaction.go:503-602", "ipldsch_satisfaction.go:693-920", "ipldsch_satisfaction.go:923-1030", "ipldsch_satisfaction.go:2213-2360", "ipldsch_satisfaction.go:4255-4330", "ipldsch_satisfaction.go:6911-7113", "ipldsch_satisfaction.go:7245-7447"]}
{"id": "C80", "title": "The generated builders as a whole keep the builders' promises", "statement": "Take a new builder of either view of any schema type and call anything, in any order, on it and on the assemblers within it, going on after errors and panics. The generated statements, taken together (which assembler is which part of which, which bit and which case belongs to which field, what each copy of each method does), give the verdicts, the value and the state that the one generic model of builders gives. So the promises of C37 hold of these statements: the documented calls succeed one by one and build the value, and a value that is built comes from documented calls only, the refused ones left out, calls that panic change nothing, and after a refused call everything goes on as if it had not been made.", "quantifier": "all schema types, both views, all sequences of calls on the builder and on everything within it, all arguments", "why_tests_cant": "sequences of calls are unbounded, and a slip in one copy may show only after a special sequence on one of the 20 assemblers", "anchors": ["ipldsch_satisfaction.go:446-466", "ipldsch_satisfaction.go:468-502", "ipldsch_satisfaction.go:503-602", "ipldsch_satisfaction.go:693-920", "ipldsch_satisfaction.go:923-1030"]}
