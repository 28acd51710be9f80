{
 "claims": [
  {
   "property": "C01",
   "status": "proved",
   "theorems": [
    "C01_read_your_write"
   ],
   "note": ""
  },
  {
   "property": "C02",
   "status": "proved",
   "theorems": [
    "C02_set_frame"
   ],
   "note": ""
  },
  {
   "property": "C03",
   "status": "proved",
   "theorems": [
    "C03_history_refines"
   ],
   "note": ""
  },
  {
   "property": "C04",
   "status": "proved",
   "theorems": [
    "C04_encode_wellformed"
   ],
   "note": ""
  },
  {
   "property": "C05",
   "status": "proved",
   "theorems": [
    "C05_decode_encode"
   ],
   "note": ""
  },
  {
   "property": "C06",
   "status": "proved",
   "theorems": [
    "C06_decode_accepts"
   ],
   "note": ""
  },
  {
   "property": "C07",
   "status": "partial",
   "theorems": [
    "C07_C09_decode_class_partial",
    "C67_decode_outcomes",
    "C07_accepts_only_wellformed_refuted",
    "C07_field_zero_refuted"
   ],
   "note": "The full claim is false of the code: a counterexample is proved. The partial theorem gives it for every input without an overlong varint or a length prefix of 2^63 or more in record position; C67_decode_outcomes says exactly which inputs are accepted, without any condition."
  },
  {
   "property": "C08",
   "status": "proved",
   "theorems": [
    "C08_truncation"
   ],
   "note": ""
  },
  {
   "property": "C09",
   "status": "partial",
   "theorems": [
    "C07_C09_decode_class_partial",
    "C67_decode_outcomes",
    "C67_soon_or_never",
    "C09_unsupported_panics",
    "C09_terminates_refuted",
    "C09_unknown_field_refuted",
    "C09_group_refuted"
   ],
   "note": "False of the code: Decode diverges on an 11-byte input and panics on out-of-range fields and group tags (proved). Partial: on non-malformed input it panics exactly in those cases; C67 says exactly when it panics or diverges, on all inputs."
  },
  {
   "property": "C10",
   "status": "proved",
   "theorems": [
    "C10_last_wins"
   ],
   "note": ""
  },
  {
   "property": "C11",
   "status": "proved",
   "theorems": [
    "C11_iterator_exact"
   ],
   "note": ""
  },
  {
   "property": "C12",
   "status": "proved",
   "theorems": [
    "C12_append_to"
   ],
   "note": ""
  },
  {
   "property": "C13",
   "status": "proved",
   "theorems": [
    "C13_defaults_presence"
   ],
   "note": ""
  },
  {
   "property": "C14",
   "status": "proved",
   "theorems": [
    "C14_offsets_map"
   ],
   "note": ""
  },
  {
   "property": "C15",
   "status": "proved",
   "theorems": [
    "C15_no_map"
   ],
   "note": ""
  },
  {
   "property": "C16",
   "status": "proved",
   "theorems": [
    "C16_set_order"
   ],
   "note": ""
  },
  {
   "property": "C17",
   "status": "proved",
   "theorems": [
    "C17_reset_fresh"
   ],
   "note": ""
  },
  {
   "property": "C18",
   "status": "proved",
   "theorems": [
    "C18_decode_forgets"
   ],
   "note": ""
  },
  {
   "property": "C19",
   "status": "proved",
   "theorems": [
    "C19_submessage_round_trip"
   ],
   "note": ""
  },
  {
   "property": "C20",
   "status": "proved",
   "theorems": [
    "C20_tree_round_trip",
    "C20_reads_exact"
   ],
   "note": ""
  },
  {
   "property": "C21",
   "status": "proved",
   "theorems": [
    "C21_wire_encoding"
   ],
   "note": ""
  },
  {
   "property": "C22",
   "status": "partial",
   "theorems": [
    "C22_foreign_varint_partial",
    "C22_sint32_all",
    "C22_sint32_refuted"
   ],
   "note": "Proved except for sint32 wire values of 2^32 and more, where the exact result is proved and differs from truncate-first."
  },
  {
   "property": "C23",
   "status": "proved",
   "theorems": [
    "C23_no_growth",
    "C23_one_record"
   ],
   "note": ""
  },
  {
   "property": "C24",
   "status": "proved",
   "theorems": [
    "C24_in_place"
   ],
   "note": ""
  },
  {
   "property": "C25",
   "status": "partial",
   "theorems": [
    "C25_set_on_decoded_partial",
    "C25_history_partial",
    "C72_any_history",
    "C25_nonminimal_tag_refuted",
    "C25_wire_type_refuted"
   ],
   "note": "False of the code for setters on fields whose current record has a non-minimal tag or another wire type (counterexamples proved); proved for all other messages, and for whole histories over arbitrary well-formed messages in which no setter is applied to such a field. What setters do to all other messages, whatever the bytes: C72_any_history."
  },
  {
   "property": "C26",
   "status": "partial",
   "theorems": [
    "C26_unknown_fields_partial",
    "C26_out_of_range_refuted"
   ],
   "note": "Undeclared fields within the range are preserved; field numbers beyond the largest declared one make Decode panic (proved)."
  },
  {
   "property": "C27",
   "status": "partial",
   "theorems": [
    "C27_accessors_after_decode_partial",
    "C67_accessors",
    "C71_iterate",
    "C71_message",
    "C27_wire_type_refuted"
   ],
   "note": "False of the code on wire type mismatches (proved); proved otherwise on non-malformed input; what each accessor does on all inputs: C67, C71."
  },
  {
   "property": "C28",
   "status": "partial",
   "theorems": [
    "C28_varint_accessors_partial",
    "C67_accessors",
    "C28_cut_field",
    "C28_bytes_refuted",
    "C28_leak_refuted"
   ],
   "note": "False of the code (counterexamples proved: the accessor of a truncated bytes field panics, or returns bytes beyond the message). Proved: the varint accessors are safe after every failed Decode; for a well-formed message cut anywhere, the exact behaviour of the accessor of the cut field (and C54 for all others); for arbitrary bytes, what each accessor does (C67_accessors). C74 gives the exact result where an accessor reaches beyond the message."
  },
  {
   "property": "C29",
   "status": "proved",
   "theorems": [
    "C29_reads_never_write",
    "C29_concurrent_readers"
   ],
   "note": ""
  },
  {
   "property": "C30",
   "status": "partial",
   "theorems": [
    "C30_views",
    "C30_decoded_views",
    "C30_next_is_find",
    "C30_wire_type_mismatch_refuted"
   ],
   "note": "Proved for all messages produced by histories of calls and for all decoded well-formed buffers whose field has wire type 2; false of the code for a field of another wire type (counterexample proved: the slice reaches beyond the message). C74 gives the exact result in that case."
  },
  {
   "property": "C31",
   "status": "proved",
   "theorems": [
    "C31_own_buffer_only"
   ],
   "note": ""
  },
  {
   "property": "C32",
   "status": "partial",
   "theorems": [
    "C32_argument_copied_partial",
    "C32_self_view_partial",
    "C32_append_copied_partial",
    "C32_self_view_refuted",
    "C32_own_value_refuted",
    "C32_spare_capacity_refuted"
   ],
   "note": "False of the code for arguments that are views of the message itself in or behind the record being replaced, and for arguments in the spare capacity (three counterexamples proved); proved for all other arguments."
  },
  {
   "property": "C33",
   "status": "proved",
   "theorems": [
    "C33_independent"
   ],
   "note": ""
  },
  {
   "property": "C34",
   "status": "partial",
   "theorems": [
    "C34_child_mutation_partial",
    "C34_sibling_overwritten_refuted"
   ],
   "note": "False of the code: mutating the sub-message overwrites the parent's following fields (counterexample proved). Proved for the fields whose last record lies before the sub-message. C73, applied to the sub-message, gives exactly which bytes of the parent change."
  },
  {
   "property": "C35",
   "status": "proved",
   "theorems": [
    "C35_element_errors"
   ],
   "note": ""
  },
  {
   "property": "C36",
   "status": "partial",
   "theorems": [
    "C36_split_submessage_refuted",
    "C36_last_piece_partial"
   ],
   "note": "False of the code (counterexample proved): no error, and only the last piece is read."
  },
  {
   "property": "C44",
   "status": "proved",
   "theorems": [
    "C44_layout_independent"
   ],
   "note": ""
  },
  {
   "property": "C37",
   "status": "proved",
   "theorems": [
    "C37_array",
    "C37_in_range"
   ],
   "note": ""
  },
  {
   "property": "C38",
   "status": "proved",
   "theorems": [
    "C38_codec",
    "C38_message",
    "C38_refuses"
   ],
   "note": ""
  },
  {
   "property": "C39",
   "status": "proved",
   "theorems": [
    "C39_table",
    "C39_decode"
   ],
   "note": ""
  },
  {
   "property": "C40",
   "status": "partial",
   "theorems": [
    "C40_compiles_iff_partial",
    "C40_clashes_refuted",
    "C40_not_go_refuted"
   ],
   "note": "False of the code: 20 descriptors with distinct names whose generated package does not compile (proved). The partial theorem gives the exact condition (if and only if) on the names under which it compiles."
  },
  {
   "property": "C41",
   "status": "proved",
   "theorems": [
    "C41_requested"
   ],
   "note": ""
  },
  {
   "property": "C42",
   "status": "proved",
   "theorems": [
    "C42_words",
    "C42_identifier"
   ],
   "note": ""
  },
  {
   "property": "C43",
   "status": "proved",
   "theorems": [
    "C43_write",
    "C43_sticky",
    "C43_render"
   ],
   "note": ""
  },
  {
   "property": "C45",
   "status": "proved",
   "theorems": [
    "C45_generated_code"
   ],
   "note": ""
  },
  {
   "property": "C46",
   "status": "partial",
   "theorems": [
    "C46_output_names_partial",
    "C46_output_names_refuted"
   ],
   "note": "False of the code for file names containing .zeropb.go (counterexample proved); proved for all others."
  },
  {
   "property": "C47",
   "status": "proved",
   "theorems": [
    "C47_reads",
    "C47_decode",
    "C47_reset",
    "C47_mutations"
   ],
   "note": ""
  },
  {
   "property": "C51",
   "status": "partial",
   "theorems": [
    "C51_append_partial",
    "C51_first_set_partial",
    "C51_same_size_partial",
    "C51_any_set_before_partial",
    "C51_resize_refuted"
   ],
   "note": "False of the code when a set changes the size of a record (counterexample proved: bytes are shifted under the view). Proved for appends, first sets, same-size overwrites of another field, and for all holders of bytes before the replaced record whatever the size. C73 gives the exact bytes every holder reads after every set."
  },
  {
   "property": "C52",
   "status": "partial",
   "theorems": [
    "C52_client_append_partial",
    "C52_append_to_result_refuted"
   ],
   "note": "False of the code: the returned slice has the buffer's capacity, so append overwrites the following fields (counterexample proved). Proved when the slice has no spare capacity or the append reallocates."
  },
  {
   "property": "C53",
   "status": "partial",
   "theorems": [
    "C53_copy_append_partial",
    "C53_copy_first_set_partial",
    "C53_copy_overwrite_partial",
    "C53_copy_refuted",
    "C53_both_grow_refuted"
   ],
   "note": "False of the code for overwrites and for growth of both copies (two counterexamples proved). Proved for one copy growing by appends or first sets, and for overwrites as far as fields last set before the overwritten record are concerned. C73 gives exactly which bytes of one copy the other one's calls change."
  },
  {
   "property": "C48",
   "status": "proved",
   "theorems": [
    "C48_decode_iterations",
    "C48_decode_lazy"
   ],
   "note": ""
  },
  {
   "property": "C49",
   "status": "proved",
   "theorems": [
    "C49_iteration_cost"
   ],
   "note": ""
  },
  {
   "property": "C50",
   "status": "partial",
   "theorems": [
    "C50_concat_partial",
    "C50_submessage_refuted"
   ],
   "note": "False of the code for singular sub-messages present in both (counterexample proved: the first is lost); proved for everything else."
  },
  {
   "property": "C54",
   "status": "partial",
   "theorems": [
    "C54_complete_fields_partial",
    "C71_iterate",
    "C54_iterator_hangs_refuted"
   ],
   "note": "False of the code: iterating after a failed Decode never returns if the message ends within a varint (3-byte counterexample proved). Proved for all getters of other fields and for iterators when the size of the cut record can be read; C71_iterate says what iterators do in all cases."
  },
  {
   "property": "C55",
   "status": "partial",
   "theorems": [
    "C55_output_partial",
    "C55_success",
    "C55_text_command",
    "C55_failure_status_refuted"
   ],
   "note": "What reaches standard output and standard error is proved exactly; the claim that failures are signalled is false (proved: exit status 0 and an empty, i.e. valid, response)."
  },
  {
   "property": "C56",
   "status": "partial",
   "theorems": [
    "C56_enum_read",
    "C56_enum_write_partial",
    "C56_negative_enum_refuted"
   ],
   "note": "Reading is proved for all enum numbers; writing for the low 32 bits; the encoding of negative numbers is not protobuf's (proved)."
  },
  {
   "property": "C57",
   "status": "proved",
   "theorems": [
    "C57_text",
    "C57_text_unique",
    "C57_declared",
    "C57_no_error_passed_over"
   ],
   "note": "Also proved: C57_ambiguous_refuted (the text does not determine the message), C57_panics and C57_list_panics (on malformed sub-messages)."
  },
  {
   "property": "C58",
   "status": "proved",
   "theorems": [
    "C58_contained",
    "C58_noninterference"
   ],
   "note": ""
  },
  {
   "property": "C59",
   "status": "partial",
   "theorems": [
    "C59_string_partial",
    "C59_string_mutates_refuted"
   ],
   "note": "False of the code: setting the field again changes the string already returned (counterexample proved). Proved: reads and mutations of other messages leave it alone; C51 gives the mutations of the same message that do. C73 gives the exact bytes of the string after any set."
  },
  {
   "property": "C60",
   "status": "proved",
   "theorems": [
    "C60_minimal_size",
    "C60_same_size"
   ],
   "note": ""
  },
  {
   "property": "C61",
   "status": "partial",
   "theorems": [
    "C61_permutation_partial",
    "C78_equal_bytes",
    "C61_order_refuted"
   ],
   "note": "False of the code: the order of the calls shows in the bytes (counterexample proved). Proved: the records are the same up to order; C78_equal_bytes says exactly when the bytes are equal."
  },
  {
   "property": "C62",
   "status": "partial",
   "theorems": [
    "C62_evolution_partial",
    "C62_convert_exact",
    "C62_removed_last_field_refuted"
   ],
   "note": "Proved when every number the writer used is below the reader's array size; otherwise Decode panics (counterexample proved)."
  },
  {
   "property": "C63",
   "status": "partial",
   "theorems": [
    "C63_invariant_partial",
    "C63_same_program",
    "C63_spare_capacity_refuted"
   ],
   "note": "Proved for all reachable states (including recovered panics) when the buffer has no spare capacity; false with spare capacity after decoding a field of another wire type (counterexample proved)."
  },
  {
   "property": "C64",
   "status": "partial",
   "theorems": [
    "C64_panic_atomic_partial",
    "C64_reuse",
    "C64_bytes_moved_refuted"
   ],
   "note": "Reusability is proved. Atomicity is proved except for one panic point, for which the counterexample is proved and the states in which it can be reached are characterised."
  },
  {
   "property": "C65",
   "status": "proved",
   "theorems": [
    "C65_recovered_decode"
   ],
   "note": ""
  },
  {
   "property": "C66",
   "status": "proved",
   "theorems": [
    "C66_decode",
    "C66_mutations",
    "C66_unambiguous"
   ],
   "note": "Sub-message fields are taken to have at most one record (split sub-messages: C36)."
  },
  {
   "property": "C67",
   "status": "proved",
   "theorems": [
    "C67_decode_outcomes",
    "C67_soon_or_never",
    "C67_accessors"
   ],
   "note": "Buffers shorter than 2^62 bytes. Sub-message accessors and iterators: C71."
  },
  {
   "property": "C68",
   "status": "proved",
   "theorems": [
    "C68_reads_in_place",
    "C68_absent_stays_absent"
   ],
   "note": "On the heap model. Non-repeated fields; buffers shorter than 2^63 bytes."
  },
  {
   "property": "C69",
   "status": "partial",
   "theorems": [
    "C69_same_history",
    "C69_same_decode",
    "C69_any_input",
    "C69_wrap_refuted",
    "C69_large_field_refuted",
    "C69_truncation_refuted",
    "C69_alias_refuted"
   ],
   "note": "Proved for types with field numbers below 2^28, buffers below 2^31 bytes and (Decode) any bytes, well-formed or not, in which no field number is 2^31 or more and no record claims to end beyond position 2^31. False beyond: counterexamples proved (a length prefix just below 2^31 panics; field numbers 2^28 to 2^29-1; a length prefix of 2^32 in malformed input; field number 2^32+1)."
  },
  {
   "property": "C70",
   "status": "proved",
   "theorems": [
    "C70_absent_entries"
   ],
   "note": ""
  },
  {
   "property": "C71",
   "status": "proved",
   "theorems": [
    "C71_find_next",
    "C71_progress",
    "C71_iterate",
    "C71_message"
   ],
   "note": "Buffers shorter than 2^62 bytes; field numbers from 1 for the loop."
  },
  {
   "property": "C72",
   "status": "proved",
   "theorems": [
    "C72_any_history"
   ],
   "note": "Array sizes up to 2^29 (all protobuf field numbers), total size of the calls below 2^62 bytes. A call that panics ends the history here; C63 and C64 go on after recovered panics."
  },
  {
   "property": "C73",
   "status": "proved",
   "theorems": [
    "C73_set",
    "C73_set_view",
    "C73_append",
    "C73_reads"
   ],
   "note": "Arguments that are views must lie outside the message's window (C32 and C51 for views of the message itself); calls that return; array sizes up to 2^29, total size of the calls below 2^62 bytes."
  },
  {
   "property": "C74",
   "status": "proved",
   "theorems": [
    "C74_get",
    "C74_stretch",
    "C74_next"
   ],
   "note": "Array sizes up to 2^29, total size of the calls and capacity below 2^62 bytes. For a setter that stretches the message: as long as the resulting positions fit 16 bits."
  },
  {
   "property": "C75",
   "status": "proved",
   "theorems": [
    "C75_programs",
    "C75_determined",
    "C75_in_bounds"
   ],
   "note": "Array sizes up to 2^29, arrays of less than 2^60 bytes. Left open (the machine's outcome Open): copies of a struct whose message has ever had 65535 bytes or more (the copies share the overflow map, C53), setters that stretch a malformed message so that a position no longer fits 16 bits, and programs Go's types rule out."
  },
  {
   "property": "C76",
   "status": "proved",
   "theorems": [
    "C76_programs",
    "C76_determined",
    "C76_behind_determined",
    "C76_in_bounds",
    "C76_agrees"
   ],
   "note": "As C75. Left open as well: what follows a Decode that panics after storing, for an overlong varint, a position before the first byte for field number 0."
  },
  {
   "property": "C77",
   "status": "proved",
   "theorems": [
    "C77_goroutines",
    "C77_specified",
    "C77_separate",
    "C77_readers",
    "C77_races"
   ],
   "note": "Sequentially consistent interleaving of single accesses, which the Go memory model guarantees for programs without data races. Goroutines start from one common beginning; channels and nested starts are not modelled (a lock: C81; later rounds of goroutines: C86). The rule is by variable number: a goroutine that copies a struct may write to none of its new structs, or owns the original."
  },
  {
   "property": "C78",
   "status": "proved",
   "theorems": [
    "C78_order",
    "C78_determined",
    "C78_equal_bytes",
    "C78_set_again"
   ],
   "note": ""
  },
  {
   "property": "C79",
   "status": "proved",
   "theorems": [
    "C79_getter",
    "C79_set_same",
    "C79_set",
    "C79_decode",
    "C79_next",
    "C79_encode",
    "C79_repeated"
   ],
   "note": "One access: a load or store of a byte, an offset, a slice header, a reference or a whole Go map operation, or an allocation. Total size of the calls below 2^63 bytes; setters with a value of the client's (a slice that aliases memory: C80)."
  },
  {
   "property": "C80",
   "status": "proved",
   "theorems": [
    "C80_build"
   ],
   "note": "Go's append grows by a quarter at least (plus rounding up to a size class), so the hypothesis on growth holds of it."
  },
  {
   "property": "C81",
   "status": "proved",
   "theorems": [
    "C81_locked",
    "C81_specified",
    "C81_races"
   ],
   "note": "The lock is modelled as its promise: Lock waits until nobody is inside, RLock until no writer is. What a goroutine does outside its sections with memory of its own is not part of it (C77). A section that never ends or exceeds the int range (as the specification then says) keeps the lock."
  },
  {
   "property": "C82",
   "status": "proved",
   "theorems": [
    "C82_decode",
    "C82_next",
    "C82_getter",
    "C82_decode_quadratic",
    "C82_next_quadratic"
   ],
   "note": "Decode and Next may also never come back (C09); OutOfFuel is that outcome. binary.Uvarint as of Go 1.12 (overlong varints are read to their end); since Go 1.17 it stops after ten bytes."
  },
  {
   "property": "C83",
   "status": "proved",
   "theorems": [
    "C83_same_history",
    "C83_same_decode",
    "C83_go117_reads",
    "C83_go117_differs",
    "C83_same_call"
   ],
   "note": "That the releases do differ on other malformed bytes is proved by C83_error_or_panic_refuted, C83_error_or_endless_refuted and C83_panic_or_success_refuted."
  },
  {
   "property": "C84",
   "status": "proved",
   "theorems": [
    "C84_same_programs",
    "C84_uvarint",
    "C84_decode",
    "C84_next",
    "C84_getter"
   ],
   "note": "As C82, an execution that never comes back (C09) is the outcome OutOfFuel."
  },
  {
   "property": "C85",
   "status": "proved",
   "theorems": [
    "C85_set",
    "C85_set_slice",
    "C85_append",
    "C85_reachable"
   ],
   "note": "C85_reachable: in the model of reachable states a setter that would use spare capacity panics (as in C63); C85_set has no such restriction."
  },
  {
   "property": "C86",
   "status": "proved",
   "theorems": [
    "C86_any_order",
    "C86_sequential",
    "C86_goroutines",
    "C86_specified"
   ],
   "note": "All goroutines of a round are waited for before the next begins; the goroutine that starts them takes part in a round as one of them. A goroutine that iterates with an iterator it was given does so on a copy of the variable. Within a round, calls that end (a goroutine that never ends is never joined)."
  },
  {
   "property": "C87",
   "status": "proved",
   "theorems": [
    "C87_handed_over",
    "C87_specified",
    "C87_then",
    "C87_together"
   ],
   "note": "Handing over is modelled as its promise: a parcel is with one goroutine at a time, and what that one did happens before what the next does. The channel, pool or mutex itself is not modelled. Parcels can be put together; a parcel is not split again."
  },
  {
   "property": "C88",
   "status": "proved",
   "theorems": [
    "C88_passed_on",
    "C88_specified",
    "C88_then"
   ],
   "note": "Channels are unbounded and give out what is in them in any order; executions with first-in-first-out, bounded or unbuffered channels, with a sync.Pool or with a mutex that guards a parcel are among these. A parcel is sent with its variables; the machine lets a sender go on using them, which the rule forbids (C88_sent: it races). That a channel establishes happens-before is an assumption on Go's memory model, as in C77. Sections end; a goroutine blocked forever on a channel is not excluded."
  }
 ]
}