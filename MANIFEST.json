{"claims": [
 {"property": "C01", "status": "proved", "theorems": ["blob_bytes_survive"], "note": "For every buffered reader state that delivers the object, of any buffer size from 64 bytes up."},
 {"property": "C02", "status": "proved", "theorems": ["tree_bytes_survive"], "note": ""},
 {"property": "C03", "status": "proved", "theorems": ["commit_bytes_survive"], "note": "Canonical commits are defined in Spec.v (commit_ok): header lines fit the reader's buffer and do not end in a carriage return."},
 {"property": "C04", "status": "proved", "theorems": ["tag_bytes_survive"], "note": ""},
 {"property": "C05", "status": "proved", "theorems": ["nodes_survive"], "note": ""},
 {"property": "C06", "status": "proved", "theorems": ["encode_writes_header"], "note": ""},
 {"property": "C07", "status": "proved", "theorems": ["encode_injective", "encode_not_injective_in_general", "different_objects_have_different_links"], "note": "encode_not_injective_in_general shows that well-formedness is needed."},
 {"property": "C08", "status": "proved", "theorems": ["person_line_survives_iff", "person_written_as_text"], "note": ""},
 {"property": "C09", "status": "proved", "theorems": ["person_parsing_is_total"], "note": ""},
 {"property": "C10", "status": "proved", "theorems": ["decoding_never_panics", "decoding_never_panics_fresh", "signature_loop_never_ends", "decoding_into_the_matching_builder_never_panics"], "note": "for every source that does not itself report bufio.ErrBufferFull; the last theorem shows that this condition is needed"},
 {"property": "C11", "status": "proved", "theorems": ["delivery_does_not_matter", "eof_with_data_matters", "error_with_data_matters", "hundred_empty_reads_matter"], "note": "the three exceptions are each exhibited"},
 {"property": "C12", "status": "proved", "theorems": ["lines_are_used_in_time"], "note": "parsing with lines that alias the buffer gives the same as parsing with copied lines"},
 {"property": "C13", "status": "proved", "theorems": ["failures_are_reported"], "note": ""},
 {"property": "C14", "status": "proved", "theorems": ["temporary_failure_can_be_lost"], "note": "an existence claim, proved by a witness"},
 {"property": "C15", "status": "proved", "theorems": ["no_space_is_rejected", "unknown_type_is_rejected", "unknown_type_reads_no_more", "only_known_types_parse"], "note": ""},
 {"property": "C16", "status": "proved", "theorems": ["blob_size_handling", "blob_without_nul_is_rejected"], "note": ""},
 {"property": "C17", "status": "proved", "theorems": ["declared_size_has_no_effect", "tree_and_commit_size_must_be_a_number", "declared_tag_size_has_no_effect"], "note": ""},
 {"property": "C18", "status": "proved", "theorems": ["decoded_links_are_sha1", "sha1_link_prefix", "commit_fields_come_from_its_lines", "tag_fields_come_from_its_lines"], "note": "Absent links: the tree and object fields are LNil exactly when there is no tree or object line."},
 {"property": "C19", "status": "proved", "theorems": ["hash_to_cid_and_back", "hash_to_cid_injective", "hash_of_any_cid", "short_hashes_crash_the_encoder"], "note": "CidSpec.v states what a CID and a multihash are."},
 {"property": "C20", "status": "proved", "theorems": ["decoded_objects_encode"], "note": "For any reader; the exception is a commit without author or committer, which panics."},
 {"property": "C21", "status": "proved", "theorems": ["decoded_tree_names_are_distinct", "repeated_names_are_rejected"], "note": ""},
 {"property": "C22", "status": "proved", "theorems": ["tree_lookup_agrees_with_iteration", "pointers_do_not_matter", "trees_are_read_in_file_order"], "note": "TreeHeap.v has the pointers into reallocated arrays; for every growth of arrays and any reader. File order for every input that parses."},
 {"property": "C23", "status": "proved", "theorems": ["truncated_tree", "truncated_trees_are_detected_refuted", "cut_inside_a_hash_is_detected"], "note": "The exact result for every cut, and the refutation of the expectation."},
 {"property": "C24", "status": "proved", "theorems": ["commit_message_is_read_verbatim", "tag_message_is_read_verbatim", "commit_fields_come_from_its_lines", "tag_fields_come_from_its_lines"], "note": ""},
 {"property": "C25", "status": "proved", "theorems": ["commit_fields_come_from_its_lines"], "note": ""},
 {"property": "C26", "status": "proved", "theorems": ["commits_are_written_in_order", "misplaced_header_does_not_survive"], "note": ""},
 {"property": "C27", "status": "proved", "theorems": ["signature_with_a_wrong_first_line_is_rejected", "unterminated_signature_is_rejected", "ssh_signed_commits_are_rejected"], "note": ""},
 {"property": "C28", "status": "proved", "theorems": ["buffer_size_does_not_matter", "long_line_is_cut", "long_line_cut_before_cr", "long_header_line_is_cut", "long_header_line_does_not_survive", "long_tag_line_is_cut"], "note": ""},
 {"property": "C29", "status": "proved", "theorems": ["tags_are_written_in_order", "missing_tagger_is_added", "ignored_tag_lines_are_dropped", "surviving_tags_are_canonical"], "note": ""},
 {"property": "C30", "status": "proved", "theorems": ["both_views_encode_alike", "encoding_the_representation_of_a_commit_panics", "both_views_encode_alike_refuted"], "note": "Holds for blobs, trees and tags; refuted for commits."},
 {"property": "C31", "status": "proved", "theorems": ["generic_bytes_are_written_verbatim", "lists_panic", "other_nodes_are_errors", "empty_maps_are_errors", "generic_commits", "generic_tags", "generic_tags_encode_like_typed_tags"], "note": "Exact characterisation of which generic maps encode, and to what."},
 {"property": "C32", "status": "proved", "theorems": ["bad_nodes_write_nothing", "good_nodes_are_written", "write_errors_are_reported", "short_writes_are_reported_refuted"], "note": "Success implies complete delivery for writers that obey io.Writer; a writer that takes fewer bytes without an error is not noticed for blobs and headers (refuted)."},
 {"property": "C33", "status": "proved", "theorems": ["block_cid_must_be_git_sha1", "block_cid_v0_is_rejected", "block_hash_is_checked_refuted"], "note": "The undefined CID (no bytes) makes go-cid's Prefix panic and is excluded."},
 {"property": "C34", "status": "proved", "theorems": ["entry_points_agree"], "note": "zlib is left open: any decompressor that yields the data."},
 {"property": "C35", "status": "proved", "theorems": ["decoding_into_a_builder", "decoding_into_the_matching_builder", "decoding_into_another_builder", "decoding_into_a_tree_builder_refuted"], "note": ""},
 {"property": "C36", "status": "proved", "theorems": ["persons_are_built_from_their_fields", "entries_are_built_from_their_fields", "tags_are_built_from_their_fields", "commits_are_built_from_their_fields", "accepted_tags_are_complete", "order_of_fields_is_irrelevant", "struct_builders_do_not_panic", "entry_and_tag_builders_do_not_panic", "commit_builder_panics_only_for_persons", "commit_builder_panics_refuted"], "note": "StructSpec.v says when a node holds a struct. A commit's author or committer given as anything but the library's own PersonInfo panics."},
 {"property": "C37", "status": "proved", "theorems": ["documented_calls_build_the_value", "only_documented_calls_build", "answers_follow_the_phases", "panics_change_nothing", "refused_calls_leave_no_trace", "finished_builders_refuse_everything", "finished_builders_refuse_everything_refuted", "assign_in_the_middle_panics_refuted", "tree_keys_are_unique_refuted", "required_fields_are_given_refuted", "finished_fields_stay_refuted"], "note": "For every schema of these shapes, both kinds of builder and every sequence of calls on the handles the client holds: the documented order succeeds and builds the value; a value is only built by the documented calls; refused calls leave no trace; finished builders refuse everything. Refuted outside that: AssignNode of a map of another type reopens a builder or goes on in the middle, a tree's AssembleKey repeats keys, and handles kept too long can skip a required field or (representation) overwrite a finished one."},
 {"property": "C38", "status": "proved", "theorems": ["struct_fields", "representation_fields", "no_overread"], "note": "Typed and representation views of persons, tags, tree entries and commits."},
 {"property": "C39", "status": "proved", "theorems": ["list_lookup", "lookups_crash_exactly", "lookups_never_crash_refuted"], "note": "All six list views, every integer; exactly which lookups crash."},
 {"property": "C40", "status": "proved", "theorems": ["blob_reads_exactly_its_bytes", "entry_reads_exactly_its_bytes", "blobs_in_a_row"], "note": ""},
 {"property": "C41", "status": "proved", "theorems": ["well_formed_commits_are_stable", "well_formed_tags_are_stable", "stable_commits_are_well_formed", "stable_tags_are_well_formed", "trees_and_blobs_are_stable", "decoding_and_encoding_is_stable_refuted", "commit_without_a_tree_is_not_read_back"], "note": "If a decoded commit or tag is well formed, reading back what is written gives the same value. Well formed means: there is a tree or object link, the persons survive, no unknown line starts with a space right after a merge tag, and the written lines fit the buffer without a final carriage return. When the lines fit, the other conditions are also necessary. Trees and blobs are always stable, for inputs shorter than 2^63 bytes. Without the condition the claim is false: decoding_and_encoding_is_stable_refuted."},
 {"property": "C42", "status": "proved", "theorems": ["header_carriage_returns_are_dropped", "tag_carriage_returns_are_dropped", "commit_with_carriage_returns_does_not_survive", "tag_with_carriage_returns_does_not_survive"], "note": ""},
 {"property": "C43", "status": "proved", "theorems": ["blob_memory_follows_the_data", "blob_memory_model_is_the_decoder", "message_memory_follows_the_data", "message_memory_model_is_the_reader"], "note": "Capacity at most 4 times the bytes taken from the reader plus 3172, at every moment, for every declared size, reader and size-class rounding that at most doubles; same for the message read by io.ReadAll. The memory model is the decoder of the other theorems for inputs below 2^59 bytes."},
 {"property": "C44", "status": "proved", "theorems": ["accepted_objects", "meaning_is_unique"], "note": "The grammar is HeaderSpec.v."},
 {"property": "C45", "status": "proved", "theorems": ["person_lines_accepted"], "note": ""},
 {"property": "C46", "status": "proved", "theorems": ["surviving_commits_are_canonical", "surviving_tags_are_canonical"], "note": ""},
 {"property": "C47", "status": "proved", "theorems": ["header_line_of_the_buffer_size_ends_the_header"], "note": ""},
 {"property": "C48", "status": "proved", "theorems": ["links_of_a_commit", "links_of_a_tag", "links_of_trees_and_blobs"], "note": "The walk is specified in WalkSpec.v with the iterators only; a missing tree or object line gives the nil link, which the walk meets too."},
 {"property": "C49", "status": "proved", "theorems": ["paths_agree_with_walking", "paths_are_unique_refuted"], "note": "Paths that iteration finds resolve to the same node, and a path that resolves is one found by iteration up to the writing of list positions; 0, +0 and 00 reach the same node."},
 {"property": "C50", "status": "proved", "theorems": ["assigning_is_calling", "assigning_a_tree_is_calling", "copying_into_a_tree", "copying_is_assigning_refuted", "copying_into_a_struct", "copying_a_commit", "copying_a_tag", "commit_representations_panic"], "note": "AssignNode as a sequence of calls on the call-by-call machine ends as the one-step functions say, for every node; copying builds trees that assigning panics on, so the expectation that the two agree is refuted."},
 {"property": "C51", "status": "proved", "theorems": ["stored_links_are_hashes", "storing_follows_encoding", "computed_links_are_stored_links", "loaded_nodes_are_checked", "trees_commits_and_tags_load_exactly", "stored_nodes_load", "other_codecs_do_not_load", "trusted_storage_is_not_checked", "failing_storage_does_not_load", "short_hashes_are_enough_refuted", "loading_blobs_is_exact_refuted", "decode_into_end_is_decode_into"], "note": "The link system is a library whose source was not available; the two _refuted theorems are stronger claims that fail."},
 {"property": "C52", "status": "proved", "theorems": ["exactly_these_objects_survive", "larger_buffers_keep_survivors"], "note": "Equivalence with the specification in SurviveSpec.v for all inputs, line lengths, buffer sizes of at least 64 and chunkings."},
 {"property": "C53", "status": "proved", "theorems": ["exactly_survivors_keep_their_links"], "note": "For every hash function with 20 byte results that does not collide on the two texts at hand."},
 {"property": "C54", "status": "proved", "theorems": ["accessors_are_lookups", "accessors_panic_on_nil", "optional_fields_unbox", "typed_iteration_is_iteration", "typed_lookups_are_lookups", "typed_lookup_maybe", "lookup_maybe_can_be_asked_refuted", "scalars_keep_their_value", "maybes_in_every_state", "nil_maybes_panic"], "note": "The code violates the part about LookupMaybe of lists: past the end it returns a nil pointer and asking it panics."},
 {"property": "C55", "status": "proved", "theorems": ["prototypes_rebuild_typed_nodes", "prototypes_rebuild_representations"], "note": "The statement includes the panics of commits with persons and of trees with entries."},
 {"property": "C56", "status": "proved", "theorems": ["exactly_survivors_load", "exactly_these_nodes_are_read_back", "walks_find_what_was_stored", "what_is_loaded_keeps_its_link", "links_say_what_they_lead_to"], "note": ""},
 {"property": "C57", "status": "proved", "theorems": ["persons_settle", "persons_take_any_number_of_rounds", "commits_settle", "tags_settle", "commits_that_grow_for_ever", "every_commit_settles_refuted"], "note": "The last two theorems are the exception in the statement: commits whose last header line fills the buffer never settle."},
 {"property": "C58", "status": "proved", "theorems": ["encode_is_what_the_methods_say", "failing_nodes_are_reported", "nodes_that_answer_alike_encode_alike", "other_implementations_encode_alike", "failing_taggers_are_dropped", "every_failure_is_reported_refuted"], "note": "The code violates the expectation that every failure is reported: the lookup of a tag's tagger is the exception."},
 {"property": "C59", "status": "proved", "theorems": ["decoding_is_parsing_and_one_call", "fresh_builders_are_assemblers"], "note": ""},
 {"property": "C60", "status": "proved", "theorems": ["generated_nodes_conform", "builders_accept_what_fits", "commit_builder_and_the_schema", "tree_builder_and_the_schema", "data_that_fits_is_accepted_refuted", "decoded_objects_conform", "decoded_objects_have_their_links_refuted", "fields_come_in_schema_order", "the_machine_follows_the_schema"], "note": "The code violates two expectations: commit and tree builders panic for data that conforms, and decoded commits and tags can have nil links."},
 {"property": "C61", "status": "proved", "theorems": ["zlib_streams_are_read", "zlib_streams_are_unambiguous", "every_text_has_a_compressed_form", "checksums_in_pieces", "compressed_objects_parse_alike", "compressed_objects_parse_alike_refuted", "compressed_nodes_survive", "compressed_parsing_never_panics", "other_heads_are_refused"], "note": "The exception (last line ends in a carriage return) is proved to exist by compressed_objects_parse_alike_refuted."},
 {"property": "C62", "status": "proved", "theorems": ["accepted_streams_are_whole_but_for_blobs", "wrong_checksums_are_noticed", "cut_streams_are_refused_but_for_blobs", "every_checksum_is_checked_refuted", "blobs_come_whole_or_not_at_all"], "note": "The claim holds for all objects but blobs; every_checksum_is_checked_refuted shows that any tail is accepted after a small blob."},
 {"property": "C63", "status": "proved", "theorems": ["numbers_of_w_bits", "sixty_four_bits", "smaller_ints_accept_less", "accepted_with_w_bits", "sizes_out_of_range_are_refused", "small_ints_never_panic", "small_objects_survive_small_ints"], "note": "The parameter w is the width of int, 32 on such platforms. Lengths of slices stay unbounded in the model. Trees and commits may declare any size that fits: tree.go:15 and commit.go:20 only read it."},
 {"property": "C64", "status": "proved", "theorems": ["refused_objects", "refused_buffers", "every_text_is_one_or_the_other", "errors_are_final", "unfinished_line_refuted"], "note": "Which error, for every text. ErrorSpec.v says what is wrong with a text without naming the decoders; the decoders give exactly that error. Error texts are not modelled, only their kind and the value they carry."},
 {"property": "C65", "status": "proved", "theorems": ["printing_changes_no_result", "what_is_printed", "every_text_has_its_output", "only_tags_print", "any_line_can_be_printed"], "note": "The standard output of ParseObject. That it is the process's standard output, and what happens if writing to it fails, is outside the model: fmt.Println's result is dropped by the code."},
 {"property": "C66", "status": "proved", "theorems": ["go_grows", "counting_changes_no_result", "decoding_is_linear", "trees_and_blobs_are_linear", "results_are_copied", "names_are_copied_again"], "note": "The count is that of Cost.v, whose comments say what is counted: not what bufio does with its own buffer, nor the growth of Go maps, comparisons and error texts. Slice elements count as one each. results_are_copied and names_are_copied_again bound the cost from below."},
 {"property": "C67", "status": "proved", "theorems": ["truncated_commits", "truncated_tags", "no_cut_gives_the_commit", "no_cut_gives_the_tag", "blank_line_can_be_missing"], "note": "Truncated blobs are C16, truncated trees C23; any text at all, C44 and C64. A person whose email holds a '>' can be cut behind it unnoticed; a signature can be cut behind an end line. The tables are exact: each cut is in a row, and two rows for one cut agree."},
 {"property": "C68", "status": "proved", "theorems": ["decoding_again_and_again", "a_held_tag_or_blob_stays", "a_held_tree_stays_refuted", "a_held_commit_stays_refuted"], "note": "Exact for all four types. Builder errors are not told apart (EWrongKind stands for all of them). Build gives a pointer to the builder's value, so a tree or commit that was handed out before changes as well; the model has the value only. Reset gives the builder a new value (Reuse.v)."},
 {"property": "C69", "status": "proved", "theorems": ["what_a_given_tree_keeps", "other_trees_stay", "decoded_trees_can_be_given", "given_tree_keeps_its_lookups_refuted", "given_tree_keeps_its_entries_refuted", "two_builders_of_one_tree_refuted"], "note": "The statement names what is not kept, and the refuted theorems show each of the three cases on decoded trees. The value assembler is over-approximated; a builder after Reset is a new builder."},
 {"property": "C70", "status": "proved", "theorems": ["lookup_finds_the_last", "assemble_entry_keeps_names_apart", "decoded_trees_read_last", "finished_trees_read_last_refuted"], "note": "For one builder at a time; two builders that were given the same tree are in C69."},
 {"property": "C71", "status": "proved", "theorems": ["still_nodes_are_encoded_as_before", "more_rounds_change_nothing", "moving_nodes_write_ordinary_objects", "encode_goes_on_only_with_an_iterator", "encode_need_not_end"], "note": "moving_nodes_write_ordinary_objects: any state, any changing answers; the node whose encoding is written is given as one of this package. The calls and their order are those of the code. An own node that an assembler takes over by its pointer is taken as it is at that moment."},
 {"property": "C72", "status": "proved", "theorems": ["quoted_strings_can_be_read_back", "messages_quote_one_string", "person_messages_show_the_line", "type_messages_show_the_type", "number_messages_show_the_number", "messages_tell_the_error", "every_message_is_plain", "refusals_have_plain_messages"], "note": "strconv.Quote, hex and io texts are modelled from knowledge of the libraries. The errors of the decoder model hold the line, size, type or name that their message quotes."},
 {"property": "C73", "status": "proved", "theorems": ["exactly_these_calls_change_a_blob", "copied_blobs_stay_alike", "given_bytes_are_shared", "asked_bytes_are_shared", "unasked_blobs_never_change", "decoded_blobs_have_their_own_bytes", "blobs_keep_their_bytes_refuted"], "note": "Slices cut with three indices are left out. The last theorem shows that blobs whose bytes were asked for can change."},
 {"property": "C74", "status": "proved", "theorems": ["counting_changes_no_encoding", "encoding_is_linear", "decoded_objects_encode_linearly", "blobs_are_handed_over", "what_is_written_is_copied", "long_cids_are_copied"], "note": "The copies made by fmt, bytes.Buffer, append and go-cid are modelled from knowledge of the libraries; allocation itself and the time of a Write of the caller's writer, beyond its bytes, are not counted."},
 {"property": "C75", "status": "proved", "theorems": ["methods_answer_by_kind", "representations_have_their_name", "scalars_answer", "refusals_are_wrong_kinds", "only_maps_and_lists_are_walked", "assemblers_refuse_by_name", "null_refusals_name_no_type_refuted", "maps_and_lists_refuse_other_kinds", "scalars_pass_on_the_refusal", "refused_calls_change_nothing"], "note": "The mixins of go-ipld-prime are modelled from knowledge of the library. That every error names the type is refuted for AssignNull of the assemblers of representations, which name a type X.Repr.Repr."},
 {"property": "C76", "status": "proved", "theorems": ["builders_are_of_their_prototypes", "nodes_tell_their_prototype", "built_nodes_tell_the_prototype_refuted", "assemblers_follow_the_schema", "nodes_follow_the_schema", "parts_tell_the_prototype_of_their_assembler", "both_ways_to_an_entry_agree", "each_field_has_its_assembler", "keys_are_strings", "keys_of_nodes_are_strings", "lists_and_trees_tell_value_prototypes", "structs_panic_on_value_prototype", "value_prototypes_are_told_refuted", "the_builders_are_these"], "note": "Holds for all nodes, paths and assemblers, except that struct assemblers panic on ValuePrototype and that the prototype of a representation builds typed nodes; both exceptions are proved as _refuted theorems."},
 {"property": "C77", "status": "proved", "theorems": ["bits_are_sets", "no_key_is_taken_twice", "bits_stay_small", "invalid_keys_tell_the_type", "bits_are_the_lists_of_the_builders"], "note": "Holds for all sequences of keys. The states of the assemblers, which decide whether a key may be offered at all, are those of C37."},
 {"property": "C78", "status": "proved", "theorems": ["structs_have_the_fields_of_the_builders", "tidying_is_its_lines", "assembling_a_value_is_its_lines", "assembling_an_entry_is_its_lines", "assigning_a_key_is_its_lines", "lines_are_for_the_fields", "resetting_is_its_lines", "new_assemblers_are_shaped", "calls_leave_assemblers_shaped", "one_part_is_touched"], "note": "The lines with the field bits are C77. reset of a scalar assembler does nothing in Go and clears a state that scalars do not use in Builder.v."},
 {"property": "C79", "status": "proved", "theorems": ["methods_are_there", "scalar_methods_are_their_lines", "list_methods_are_their_lines", "tree_methods_are_their_lines", "struct_methods_are_their_lines", "struct_methods_come_to_their_cases", "reached_assemblers_are_formed", "formed_assemblers_are_covered", "reached_methods_are_their_lines", "resets_are_their_lines", "key_assemblers_refuse"], "note": "each method body of each assembler, run statement by statement on an arbitrary state, is the function of Builder.v; the states these theorems ask for are all the states that any calls on a new builder reach"},
 {"property": "C80", "status": "proved", "theorems": ["a_call_is_its_lines", "calls_are_their_lines", "the_code_is_the_builder", "documented_calls_on_the_code", "only_documented_calls_build_on_the_code", "panics_on_the_code_change_nothing", "refusals_on_the_code_leave_no_trace", "the_bits_are_enough"], "note": "AssignNode is for nodes of the assembler's own type (others: C50). Bool, int and float are one call of the model; the theorems hold for each of the three methods of Go. As in C37, only_documented_calls_build_on_the_code, panics_on_the_code_change_nothing and refusals_on_the_code_leave_no_trace are about clients that call only assemblers they were handed. The bits that are set are kept as a list; the_bits_are_enough says that the test of Finish on the number is the test on the list."}
]}
