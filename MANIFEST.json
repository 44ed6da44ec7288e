{
 "claims": [
  {
   "property": "C01",
   "status": "partial",
   "theorems": [
    "C01_items_are_prefix_of_submitted",
    "C01_none_means_drained",
    "C01_next_returns_the_next_record",
    "C01_never_out_of_bounds",
    "C01_two_gib_ring_refuted",
    "C01_order_under_weak_memory"
   ],
   "note": "Proved for every power-of-two ring size from 8 bytes to 1 GiB, all interleavings at loop-iteration granularity, 64-bit wrap included. For the 2 GiB ring the model violates the property (refuted theorem): the length mask then contains the discard bit."
  },
  {
   "property": "C02",
   "status": "proved",
   "theorems": [
    "C02_no_lost_wakeup",
    "C02_no_lost_wakeup_when_quiet",
    "C02_next_never_blocks"
   ],
   "note": "Total-store-order model with store buffers; the two fences are what makes it true (see the fence_is_needed example). Memory models weaker than TSO are outside the model."
  },
  {
   "property": "C03",
   "status": "proved",
   "theorems": [
    "C03_held_item_is_not_overwritten",
    "C03_consumer_never_overtakes"
   ],
   "note": "Producer reservations race freely with the reader at loop-iteration granularity."
  },
  {
   "property": "C04",
   "status": "proved",
   "theorems": [
    "C04_one_read_of_any_stream",
    "C04_every_history",
    "C04_complete_read",
    "C04_open_accepts_only_good_sizes"
   ],
   "note": "Any callback, any aligned start position, 64-bit wrap, kernel writes in the middle of a read (one memory snapshot per iteration). Records are assumed to be what the kernel writes: padded to 8 bytes, length below 2^16."
  },
  {
   "property": "C05",
   "status": "proved",
   "theorems": [
    "C05_stop_after_k",
    "C05_break_or_unwind_keeps_the_rest",
    "C05_empty_buffer_is_left_alone"
   ],
   "note": "Stopping by Break and by unwinding; the events left are delivered by the next read."
  },
  {
   "property": "C06",
   "status": "proved",
   "theorems": [
    "C06_reference_is_patched",
    "C06_everything_else_unchanged",
    "C06_length_unchanged",
    "C06_bad_relocations_are_refused",
    "C06_order_independent"
   ],
   "note": "Relocation table assumption (map_table_ok): one entry per offset, none on the second slot of a data load. Order of the hash map is quantified over."
  },
  {
   "property": "C07",
   "status": "partial",
   "theorems": [
    "C07_calls_reach_what_they_named",
    "C07_programs_are_linked_independently",
    "C07_program_calling_program_refuted"
   ],
   "note": "Proved when the addresses of reachable callees differ (see C09) and the program has fewer than 2^31 instructions. Refuted: if a program calls another program, the result depends on hash map order (relinking an already linked function)."
  },
  {
   "property": "C08",
   "status": "proved",
   "theorems": [
    "C08_linking_terminates",
    "C08_linking_succeeds",
    "C08_each_reachable_callee_once"
   ],
   "note": "Fuel of the model is shown sufficient for every call graph."
  },
  {
   "property": "C09",
   "status": "partial",
   "theorems": [
    "C09_same_address_refuted",
    "C09_distinct_addresses_partial"
   ],
   "note": "The code keys linked functions by address only: two functions at the same address of two sections are confused (refuted). Positive part under distinct addresses."
  },
  {
   "property": "C10",
   "status": "partial",
   "theorems": [
    "C10_infos_follow_the_code",
    "C10_parsed_functions_are_described",
    "C10_line_info_without_first_record_refuted"
   ],
   "note": "Proved when each callee's first line record describes its first instruction, which parsing guarantees for sorted tables that have such a record; refuted otherwise."
  },
  {
   "property": "C11",
   "status": "proved",
   "theorems": [
    "C11_kfunc_calls",
    "C11_poison_is_recognisable",
    "C11_ksym_loads",
    "C11_strong_unresolved_fails",
    "C11_everything_else_unchanged",
    "C11_order_independent"
   ],
   "note": "Same table assumptions as C06."
  },
  {
   "property": "C12",
   "status": "proved",
   "theorems": [
    "C12_accepts",
    "C12_assigns",
    "C12_keeps",
    "C12_errors",
    "C12_order",
    "C12_order_errors",
    "C12_format",
    "C12_range",
    "C12_overflow"
   ],
   "note": "The listing is any byte text; only ASCII white space separates words. Which of several errors is reported may depend on the order, success and the result do not."
  },
  {
   "property": "C13",
   "status": "partial",
   "theorems": [
    "C13_read_back",
    "C13_bytes_survive",
    "C13_constructors",
    "C13_too_many_members_refuted",
    "C13_unknown_refuted",
    "C13_var_linkage_refuted"
   ],
   "note": "All kinds. Refuted corners: the unknown kind, 65536 or more elements (count stored in 16 bits), a variable with an undeclared linkage (read into a Rust enum unchecked)."
  },
  {
   "property": "C14",
   "status": "partial",
   "theorems": [
    "C14_history_round_trip",
    "C14_handles_stay_valid",
    "C14_one_addition",
    "C14_round_trip",
    "C14_parse_total",
    "C14_parsed_types_ok",
    "C14_fresh_refuted",
    "C14_unknown_kind_refuted",
    "C14_other_layout_refuted"
   ],
   "note": "Histories with at least one string. Refuted corners: the fresh BTF (header says 0 string bytes), a parsed BTF with the unknown kind or with another section order than the writer's."
  },
  {
   "property": "C15",
   "status": "partial",
   "theorems": [
    "C15_inside_is_safe_partial",
    "C15_inside_text_partial",
    "C15_abort_iff_partial",
    "C15_aborts_refuted"
   ],
   "note": "The bound check compares with the wrong end, so offsets between the string section length and header+string offset+length abort (refuted with a parsable blob). The theorem says exactly which offsets abort."
  },
  {
   "property": "C16",
   "status": "partial",
   "theorems": [
    "C16_ids_in_place",
    "C16_same_length",
    "C16_well_formed",
    "C16_accepted_partial",
    "C16_no_abort_partial",
    "C16_ksyms_layout",
    "C16_sized_empty_refuted",
    "C16_struct_size_refuted",
    "C16_bad_entry_refuted"
   ],
   "note": "Ids, lengths, well-formedness and the external symbol section proved in full. Refuted: an empty section with a preset size reaches kernels that reject it; a section turned into a struct gets its entry count as size, so members lie outside; an entry naming a missing type aborts. Acceptance and absence of aborts are proved with those cases excluded."
  },
  {
   "property": "C17",
   "status": "partial",
   "theorems": [
    "C17_size_partial",
    "C17_over_deep_partial",
    "C17_nested_array_refuted",
    "C17_overflow_refuted"
   ],
   "note": "Refuted for multi-dimensional arrays (only the innermost count is used) and for sizes of 4 GiB and more; proved for at most one array dimension."
  },
  {
   "property": "C18",
   "status": "proved",
   "theorems": [
    "C18_resolves_iff",
    "C18_fails_iff",
    "C18_idempotent",
    "C18_kinds"
   ],
   "note": "Both directions, for success and failure."
  },
  {
   "property": "C19",
   "status": "partial",
   "theorems": [
    "C19_self_partial",
    "C19_returns_partial",
    "C19_fields_self_partial",
    "C19_stack_refuted",
    "C19_abort_refuted",
    "C19_bit_offset_refuted"
   ],
   "note": "Refuted: a prototype taking itself as parameter recurses without bound; malformed kinds abort; an integer with a bit offset is not compatible with itself. Proved for types built from the kinds C types consist of."
  },
  {
   "property": "C20",
   "status": "partial",
   "theorems": [
    "C20_reads_the_field",
    "C20_values_exist",
    "C20_load_unit",
    "C20_wide_storage_refuted",
    "C20_odd_encoding_refuted",
    "C20_unsized_bitfield_refuted"
   ],
   "note": "Storage types of 1, 2, 4 or 8 bytes, integers with the encodings C has. Refuted outside: a 16-byte storage type makes the shift wrap, an unknown encoding counts as signed, a bitfield of an unsized type aborts."
  },
  {
   "property": "C21",
   "status": "partial",
   "theorems": [
    "C21_frame",
    "C21_memory",
    "C21_immediate",
    "C21_poison",
    "C21_immediate_overflow_refuted",
    "C21_register_operand_refuted",
    "C21_packet_load_refuted",
    "C21_bitfield_mismatch_refuted",
    "C21_missing_type_refuted",
    "C21_resizable",
    "C21_not_resizable"
   ],
   "note": "Frame, value, width and poison proved for every program. Refuted: a value of 2^32 or more is truncated in a 32-bit immediate; a register operand (register 0) is accepted; a packet load clobbers its successor; bitfield on one side only aborts; a missing type is an error for type id and size."
  },
  {
   "property": "C22",
   "status": "partial",
   "theorems": [
    "C22_candidates",
    "C22_accepted_agree",
    "C22_order_partial",
    "C22_cache",
    "C22_order_refuted",
    "C22_width_refuted",
    "C22_fitting"
   ],
   "note": "Order independence proved when all candidates yield a value or none does; refuted for a mixture, and for candidates that agree on the offset but not on the width."
  },
  {
   "property": "C23",
   "status": "proved",
   "theorems": [
    "C23_essential",
    "C23_flavour",
    "C23_externs"
   ],
   "note": "Both implementations of the rule."
  },
  {
   "property": "C24",
   "status": "partial",
   "theorems": [
    "C24_tiles",
    "C24_bytes",
    "C24_instructions",
    "C24_accepts",
    "C24_rejects",
    "C24_past_end_refuted"
   ],
   "note": "Exact characterisation of acceptance and of every refusal. Refuted corner: a function symbol reaching past the end of its section aborts the parser instead of being reported."
  },
  {
   "property": "C25",
   "status": "partial",
   "theorems": [
    "C25_accepted",
    "C25_bytes",
    "C25_order",
    "C25_errors",
    "C25_same_name_refuted"
   ],
   "note": "Exact characterisation of acceptance, bytes written and left alone, order independence for variables that do not overlap. Refuted: two symbols of the same name, where hash map order decides which is written."
  },
  {
   "property": "C26",
   "status": "proved",
   "theorems": [
    "C26_legacy",
    "C26_instruction",
    "C26_supported",
    "C26_probes",
    "C26_again"
   ],
   "note": "Every program; also how often the kernel is asked."
  },
  {
   "property": "C27",
   "status": "proved",
   "theorems": [
    "C27_prefix",
    "C27_btf",
    "C27_other",
    "C27_program",
    "C27_license",
    "C27_version",
    "C27_version_length",
    "C27_prefix_shadows"
   ],
   "note": "Exact characterisation of every kind by name; names are matched by prefix, so a name that begins like a special one shadows a program section (C27_prefix_shadows)."
  },
  {
   "property": "C28",
   "status": "partial",
   "theorems": [
    "C28_padded",
    "C28_words",
    "C28_short",
    "C28_section",
    "C28_pinning_refuted",
    "C28_past_end_refuted"
   ],
   "note": "Every byte string with a valid pinning word. Refuted: a pinning word other than 0 and 1 is copied unchecked into a Rust enum; a symbol reaching past the section aborts."
  },
  {
   "property": "C29",
   "status": "partial",
   "theorems": [
    "C29_order_partial",
    "C29_inner_order_partial",
    "C29_fields",
    "C29_defaults",
    "C29_unknown",
    "C29_sizes",
    "C29_order_refuted"
   ],
   "note": "Proved for members that set different things, inner maps included. Refuted: with both key and key_size (or two of value, value_size, values) the later one wins."
  },
  {
   "property": "C30",
   "status": "proved",
   "theorems": [
    "C30_round_trip",
    "C30_all_or_nothing",
    "C30_padding",
    "C30_field",
    "C30_field_whole",
    "C30_order",
    "C30_threshold"
   ],
   "note": "All argument kinds and lists, any reservation contents, both sides little-endian. The printing of floats is a parameter; that of numbers, addresses and bytes is modelled."
  },
  {
   "property": "C31",
   "status": "partial",
   "theorems": [
    "C31_rendered_partial",
    "C31_accepted",
    "C31_hex",
    "C31_dec",
    "C31_byte",
    "C31_array_ref_refuted",
    "C31_host32_refuted"
   ],
   "note": "End to end from the format string to the logged message on a 64-bit reader. Refuted: a reference to a byte array of length 4, 6 or 16 compiles with a hexadecimal hint and makes the reader panic; a 32-bit reader panics on numbers of pointer size."
  },
  {
   "property": "C32",
   "status": "partial",
   "theorems": [
    "C32_split_partial",
    "C32_unparse_partial",
    "C32_parse_unparse",
    "C32_stray_close_refuted"
   ],
   "note": "Every canonical fragment list is the parse of its spelling; every accepted string is split into pieces that re-escape to themselves when closing braces are doubled side by side. Refuted otherwise: a string with a brace pair between two single closing braces is accepted."
  },
  {
   "property": "C33",
   "status": "partial",
   "theorems": [
    "C33_once",
    "C33_stays_partial",
    "C33_effective_partial",
    "C33_links",
    "C33_descriptors",
    "C33_gone_once",
    "C33_drained",
    "C33_released_partial",
    "C33_try_fd_refuted",
    "C33_lirc_refuted",
    "C33_xdp_refuted",
    "C33_single_refuted"
   ],
   "note": "Histories of load, attach, take, detach, drop, into-inner, wrap, pin, from_pin, unpin, attach_to_link over a kernel model with BPF links and attachments made by calls. Proved for every history: each attachment made by a call is asked to detach, held or given up, exactly one of these and once; BPF links go exactly with the last descriptor or pin. Partial: staying attached and effectiveness need a place that is not replaced by a second attach and a descriptor that is still good; refuted with witnesses for failed FdLink conversions, dropped lirc links, xdp netlink links after unload, and Single-mode cgroup and sockmap attachments."
  },
  {
   "property": "C34",
   "status": "partial",
   "theorems": [
    "C34_attach",
    "C34_attach_done",
    "C34_to_link_refuted",
    "C34_to_link_leak_refuted",
    "C34_forged_refuted"
   ],
   "note": "For every reachable state, a failed attach leaves programs, links, descriptors, pins and kernel attachments as they were. Refuted for attach_to_link: a program that is not loaded or a refusing kernel loses the given link, and a link made by SchedClassifierLink::attached detaches the tracked filter."
  },
  {
   "property": "C35",
   "status": "partial",
   "theorems": [
    "C35_plain",
    "C35_nested",
    "C35_no_space",
    "C35_no_space_nested",
    "C35_long_payload_refuted"
   ],
   "note": "Round trip for payloads up to 65531 bytes and nests up to 65531 bytes; refuted beyond, where the 16-bit length field wraps without an error (no caller writes that much)."
  },
  {
   "property": "C36",
   "status": "partial",
   "theorems": [
    "C36_attributes",
    "C36_no_panic",
    "C36_message",
    "C36_receive_ends",
    "C36_receive_no_panic",
    "C36_message_iterator_refuted",
    "C36_attach_reply_refuted"
   ],
   "note": "Attributes and single messages in full. Refuted in two places: the iterator over messages repeats the error of a malformed message for ever instead of ending (its callers stop at the first error), and the attach reply reads a 20-byte structure without checking that the payload has 20 bytes."
  },
  {
   "property": "C37",
   "status": "proved",
   "theorems": [
    "C37_tc_attach",
    "C37_tc_long_name",
    "C37_tc_detach",
    "C37_tc_find",
    "C37_clsact",
    "C37_xdp",
    "C37_length"
   ],
   "note": "Every request of the file. The address of the request is taken as aligned, as its type demands."
  },
  {
   "property": "C38",
   "status": "partial",
   "theorems": [
    "C38_order",
    "C38_code",
    "C38_monotone_partial",
    "C38_strict",
    "C38_code_refuted"
   ],
   "note": "Refuted for 4.4.256 and 4.9.256: only from 4.4.257 and 4.9.257 on does the patch level count as 255, so their code is that of the next minor version and above that of a later patch level (the kernel's own macro had the same flaw). Monotone for all others; strictly below the clamp."
  },
  {
   "property": "C39",
   "status": "partial",
   "theorems": [
    "C39_round_trip",
    "C39_count",
    "C39_accepted",
    "C39_malformed_refuted"
   ],
   "note": "Exact characterisation of the accepted texts. Refuted: a range that ends before it starts is accepted as empty, and numbers may carry a plus sign."
  },
  {
   "property": "C40",
   "status": "partial",
   "theorems": [
    "C40_size",
    "C40_total",
    "C40_overflow_refuted",
    "C40_others"
   ],
   "note": "Smallest legal size for every request up to 2^31. Refuted above: the size overflows 32 bits (panic in debug builds, 0 in release builds), never reported as an error."
  },
  {
   "property": "C41",
   "status": "proved",
   "theorems": [
    "C41_written",
    "C41_read",
    "C41_round_trip",
    "C41_length"
   ],
   "note": "The kernel's buffer layout is a small trusted model. Values of size 0 would make chunks of size 0, a panic; sizes are those of types implementing Pod."
  },
  {
   "property": "C42",
   "status": "partial",
   "theorems": [
    "C42_keys",
    "C42_entries",
    "C42_skipped",
    "C42_error",
    "C42_end_refuted",
    "C42_value_error_refuted"
   ],
   "note": "Keys and entries of an unchanged map, and every single step on any kernel behaviour. Refuted: after the end the iterators start over when polled again, and an error while looking a value up does not end iteration."
  },
  {
   "property": "C43",
   "status": "proved",
   "theorems": [
    "C43_offsets",
    "C43_multi",
    "C43_single",
    "C43_array"
   ],
   "note": "Every list of points, whether attached by one multi link or one by one."
  },
  {
   "property": "C44",
   "status": "proved",
   "theorems": [
    "C44_failure",
    "C44_success",
    "C44_detach",
    "C44_mode"
   ],
   "note": "Every list of points with any pattern of failing calls, over a small model of the kernel's perf events and links. Descriptor numbers are not reused."
  },
  {
   "property": "C45",
   "status": "partial",
   "theorems": [
    "C45_batch",
    "C45_failure",
    "C45_order",
    "C45_blame_refuted"
   ],
   "note": "Object files are the tables the object crate makes of them; the debug path is a function of link name and path. Refuted: the symbol named in the error may be one that resolves."
  },
  {
   "property": "C46",
   "status": "partial",
   "theorems": [
    "C46_bounded",
    "C46_outcome",
    "C46_log_refuted",
    "C46_memory_limit"
   ],
   "note": "Every sequence of outcomes and every number of retries; the vector growth rule of the standard library is part of the model. Refuted: a log that is not UTF-8 panics."
  },
  {
   "property": "C47",
   "status": "proved",
   "theorems": [
    "C47_balance",
    "C47_load_done",
    "C47_load_again",
    "C47_attach_needs",
    "C47_unload",
    "C47_unload_failed",
    "C47_drop"
   ],
   "note": "For every history loads and closes balance; loading again is refused without effect; attach needs a loaded program; unload is done with every link before the close event; a failed unload leaves the program loaded without links; dropping closes whatever fails."
  },
  {
   "property": "C48",
   "status": "partial",
   "theorems": [
    "C48_shared",
    "C48_shared_first",
    "C48_pinned_once",
    "C48_created_once",
    "C48_reuse_partial",
    "C48_rodata_refuted",
    "C48_where",
    "C48_zero_path"
   ],
   "note": "C48_where says where each loaded map is pinned: at the caller's path, in the caller's directory or the default one, or nowhere. Every history of loads with any pattern of failing calls, over a small model of the bpf file system. Refuted for read-only maps: once loaded they are frozen, and every further load that finds them pinned fails at the update (or at the second freeze). Reuse of other maps is proved for calls that do not fail; it overwrites the contents of maps the object has data for."
  },
  {
   "property": "C49",
   "status": "partial",
   "theorems": [
    "C49_handle",
    "C49_order_partial",
    "C49_fd_zero_refuted"
   ],
   "note": "The kernel's reading of flags and references is a small trusted model (mprog). Refuted: a program of descriptor 0 is not taken as a reference by the kernel."
  },
  {
   "property": "C50",
   "status": "proved",
   "theorems": [
    "C50_once",
    "C50_answer",
    "C50_same",
    "C50_stable",
    "C50_progress"
   ],
   "note": "Interleavings of any number of threads with any questions; that OnceLock lets one thread initialise while others wait is trusted. Probes do not themselves ask for features, so there is no re-entrance."
  },
  {
   "property": "C51",
   "status": "partial",
   "theorems": [
    "C51_convert",
    "C51_reject",
    "C51_symbol",
    "C51_range_refuted",
    "C51_symbol_refuted"
   ],
   "note": "Refuted for the range: no section size is checked (the documentation leaves that to the caller); a symbol below its section or a sum past 2^64 is an unchecked overflow (panic in debug builds, wrap in release builds)."
  },
  {
   "property": "C52",
   "status": "partial",
   "theorems": [
    "C52_new",
    "C52_old",
    "C52_first",
    "C52_safe_partial",
    "C52_panic_refuted",
    "C52_oob_refuted",
    "C52_old_refuted",
    "C52_name_refuted"
   ],
   "note": "Round trip for both formats, first match, and safety for caches whose positions lie inside. Refuted: positions outside panic, an unterminated text is read past the buffer, old caches whose entry count is not text (200, say) are rejected, the exact name of a library with version is not found."
  },
  {
   "property": "C53",
   "status": "partial",
   "theorems": [
    "C53_line",
    "C53_file",
    "C53_library",
    "C53_file_name",
    "C53_inode_refuted",
    "C53_blank_refuted",
    "C53_empty_refuted",
    "C53_dash_refuted"
   ],
   "note": "Every line as the kernel prints it with an inode below 2^32 and a path not ending in a blank. Refuted outside that; also an empty file is an error and a name continued by a dash matches."
  },
  {
   "property": "C54",
   "status": "partial",
   "theorems": [
    "C54_alias",
    "C54_command",
    "C54_exact",
    "C54_cleanup_partial",
    "C54_busy_refuted",
    "C54_namespace_refuted"
   ],
   "note": "Names, the removal command and its exactness in full. Cleanup is proved for a kernel that removes events in use; refuted for Linux, which answers EBUSY while the perf event is open, as it is at every removal after it was opened (the error is ignored). Refuted as well for processes of the same id in different pid namespaces."
  },
  {
   "property": "C55",
   "status": "partial",
   "theorems": [
    "C55_tables",
    "C55_header",
    "C55_records",
    "C55_abort_causes_partial",
    "C55_short_record_refuted",
    "C55_bad_name_refuted",
    "C55_same_name_refuted",
    "C55_truncated_refuted"
   ],
   "note": "Encoding of all three tables at any position and both byte orders. Refuted: short records and unresolvable section names abort; a second table for a section name replaces the first; an over-long section is dropped silently with all that follow. The causes of aborts are characterised for inputs below 4 GiB."
  },
  {
   "property": "C56",
   "status": "partial",
   "theorems": [
    "C56_local_offset_partial",
    "C56_first_index_refuted",
    "C56_flexible_array_refuted",
    "C56_access_string",
    "C56_access_error",
    "C56_index",
    "C56_type_access",
    "C56_type_access_refused"
   ],
   "note": "Offset proved for accesses whose first index is 0 (stated with the code's byte/bit mix for others). Refuted: another first index is added in bytes instead of bits; the flexible array test looks at the wrong index."
  },
  {
   "property": "C57",
   "status": "partial",
   "theorems": [
    "C57_target_offset",
    "C57_anonymous_cycle_refuted",
    "C57_members",
    "C57_types",
    "C57_depth",
    "C57_depth_refused"
   ],
   "note": "Soundness of the target offset proved; refuted: a struct containing itself anonymously recurses without bound."
  },
  {
   "property": "C58",
   "status": "proved",
   "theorems": [
    "C58_carried_out",
    "C58_frame",
    "C58_function"
   ],
   "note": "Functions start at instruction boundaries and offsets are 32-bit words."
  },
  {
   "property": "C59",
   "status": "partial",
   "theorems": [
    "C59_enumerator",
    "C59_types",
    "C59_widened_enum_refuted",
    "C59_kinds",
    "C59_no_panic_hidden",
    "C59_value_used",
    "C59_names",
    "C59_values",
    "C59_others",
    "C59_existence",
    "C59_element"
   ],
   "note": "Refuted: a 32-bit enum of the program is not matched with a 64-bit enum of the kernel, so the instruction is poisoned."
  },
  {
   "property": "C60",
   "status": "partial",
   "theorems": [
    "C60_programs",
    "C60_past_end_refuted",
    "C60_overlap_refuted"
   ],
   "note": "Exact characterisation of what is accepted and produced. Refuted: a symbol reaching past the section aborts; overlapping symbols are accepted as two programs."
  },
  {
   "property": "C61",
   "status": "partial",
   "theorems": [
    "C61_names",
    "C61_common_case_refuted"
   ],
   "note": "Exact characterisation of the accepted names. Refuted: the name the parser's comment gives as common case, xdp/program_name, is refused."
  },
  {
   "property": "C62",
   "status": "proved",
   "theorems": [
    "C62_macros",
    "C62_program",
    "C62_context"
   ],
   "note": "All macros with arbitrary arguments; argument parsing itself is not modelled."
  },
  {
   "property": "C63",
   "status": "proved",
   "theorems": [
    "C63_collect",
    "C63_settled",
    "C63_patchable",
    "C63_address",
    "C63_finds",
    "C63_typed_succeeds",
    "C63_flavour"
   ],
   "note": "The comparison of types is the one of C19, with its recursion bounded by a parameter."
  },
  {
   "property": "C64",
   "status": "partial",
   "theorems": [
    "C64_delivered_partial",
    "C64_long_datagram_refuted",
    "C64_find",
    "C64_attached",
    "C64_texts",
    "C64_bad_name"
   ],
   "note": "Delivery needs datagrams of at most 4096 bytes, the size of the receive buffer; refuted for longer ones, whose tail is lost."
  },
  {
   "property": "C65",
   "status": "partial",
   "theorems": [
    "C65_replace_refuted",
    "C65_attach",
    "C65_attach_occupied",
    "C65_detach"
   ],
   "note": "The kernel's rule is a small trusted model of dev_xdp_attach. Refuted for replacing: the request always carries XDP_FLAGS_UPDATE_IF_NOEXIST, with which the kernel refuses to replace."
  },
  {
   "property": "C66",
   "status": "proved",
   "theorems": [
    "C66_parse",
    "C66_sources",
    "C66_at_least"
   ],
   "note": "Exact characterisation of the accepted texts."
  },
  {
   "property": "C67",
   "status": "partial",
   "theorems": [
    "C67_symbols_partial",
    "C67_malformed",
    "C67_module_refuted"
   ],
   "note": "Lines of kernel symbols proved; refuted for module symbols, whose name keeps the tab and the module in brackets."
  },
  {
   "property": "C68",
   "status": "proved",
   "theorems": [
    "C68_each",
    "C68_error"
   ],
   "note": "The kernel's next-id rule is a small trusted model."
  },
  {
   "property": "C69",
   "status": "proved",
   "theorems": [
    "C69_perf",
    "C69_multi",
    "C69_maps"
   ],
   "note": "The kernel's reading of process numbers is a small trusted model. The caller's own number given explicitly counts as the caller for multi links."
  },
  {
   "property": "C70",
   "status": "partial",
   "theorems": [
    "C70_path",
    "C70_mapped",
    "C70_cached",
    "C70_maps_refuted"
   ],
   "note": "Refuted: mappings that cannot be parsed fail the lookup though the cache has the library."
  },
  {
   "property": "C71",
   "status": "partial",
   "theorems": [
    "C71_round",
    "C71_own_partial",
    "C71_failed_pin_refuted",
    "C71_not_loaded_refuted",
    "C71_twice_refuted",
    "C71_zero_path",
    "C71_unloaded"
   ],
   "note": "Round trip in full; unpin removing only own pins for histories in which no pin fails and nobody else removes files. Refuted: the path is kept before anything is tried, so after a failed pin (path taken, program not loaded) unpin removes somebody else's file; pinning twice forgets the first pin."
  },
  {
   "property": "C72",
   "status": "partial",
   "theorems": [
    "C72_created",
    "C72_reused_refuted",
    "C72_beyond_refuted",
    "C72_beyond_partial",
    "C72_zero_name"
   ],
   "note": "Created maps in full. Refuted for reused ones: nothing about a pinned map is compared, and if its values are larger than the object's data the update reads past the end of the buffer. Proved not to when they are not larger."
  },
  {
   "property": "C73",
   "status": "partial",
   "theorems": [
    "C73_type",
    "C73_wrong_type",
    "C73_tables",
    "C73_create",
    "C73_loaded",
    "C73_variant_refuted"
   ],
   "note": "All handles and all 34 map types. Refuted for variants of Map applied by hand: they are public constructors and the conversion to a handle does not look at the type of the map inside."
  },
  {
   "property": "C74",
   "status": "partial",
   "theorems": [
    "C74_exact",
    "C74_out_of_bounds",
    "C74_variant_refuted",
    "C74_reused_refuted"
   ],
   "note": "All methods of all handles except RingBuf (modelled apart), for maps whose variant was chosen by the library. Refuted for hand-applied variants (a per-CPU map viewed as HashMap: the kernel writes one value per CPU into room for one) and for reused pinned maps, whose handles are checked against the object's sizes."
  },
  {
   "property": "C75",
   "status": "partial",
   "theorems": [
    "C75_hash",
    "C75_array",
    "C75_queue",
    "C75_stack",
    "C75_bloom",
    "C75_trie",
    "C75_trie_insert",
    "C75_trie_remove",
    "C75_frames",
    "C75_xdp_partial",
    "C75_fd0_refuted",
    "C75_sockhash_refuted"
   ],
   "note": "Against small models of the kernel's maps, which are assumptions. Hash map theorem covers plain and per-CPU hash maps (LRU eviction left out); CPU and device maps are proved for program descriptors other than 0 and refuted for 0, which the kernel takes to mean no program; refuted for SockHash::get, which cannot succeed: the handle insists on 4-byte values and the kernel only answers for 8."
  },
  {
   "property": "C76",
   "status": "proved",
   "theorems": [
    "C76_table",
    "C76_complete",
    "C76_extension"
   ],
   "note": "In full, for the 72 spellings of an independent table and any suffix, both directions. The kernel's numbers and libbpf's table are written out in ProgSpec."
  },
  {
   "property": "C77",
   "status": "partial",
   "theorems": [
    "C77_content",
    "C77_retries",
    "C77_refused",
    "C77_outcome",
    "C77_infos_partial",
    "C77_infos_refuted"
   ],
   "note": "Content, retries, refusals and outcome in full. Memory partial: refuted for objects whose .BTF.ext records are longer than the kernel's structures, which the format allows and the parser accepts; the records are repacked but the object's record size is announced, so the kernel is told to read past the buffer."
  },
  {
   "property": "C78",
   "status": "partial",
   "theorems": [
    "C78_plain",
    "C78_attach_partial",
    "C78_extension_refuted"
   ],
   "note": "Nothing changes for kinds without a target; for hooks only the recorded id, which attaching does not use. Refuted for an extension that is already loaded: the failing load records the new target, and attach then goes to it."
  },
  {
   "property": "C79",
   "status": "partial",
   "theorems": [
    "C79_program",
    "C79_site",
    "C79_call",
    "C79_extension",
    "C79_type",
    "C79_detach",
    "C79_mode_partial",
    "C79_mode_refuted"
   ],
   "note": "Program, object, type and detach in full for the kinds that attach by BPF_LINK_CREATE, BPF_PROG_ATTACH, BPF_RAW_TRACEPOINT_OPEN or setsockopt. Modes hold before Linux 5.7; refuted from 5.7 on for every cgroup kind and mode: BPF_LINK_CREATE takes no mode flags (EINVAL) and always shares. How the kernel treats the flags is in kernel_cgroup, an assumption."
  },
  {
   "property": "C80",
   "status": "partial",
   "theorems": [
    "C80_event",
    "C80_policy",
    "C80_flags",
    "C80_scope_partial",
    "C80_scope_refuted",
    "C80_tracepoint",
    "C80_probe",
    "C80_probe_scope",
    "C80_probe_panic",
    "C80_files",
    "C80_cloexec_refuted",
    "C80_return_offset_refuted"
   ],
   "note": "Events, policies, flags, probes and PMU files in full. Scope for process and CPU numbers the kernel gives out; refuted for others: the numbers are u32 cast to i32, so process 0xffffffff selects every process, process 0 the caller and CPU 0xffffffff every CPU. Refuted: PerfEvent::attach passes no close-on-exec flag; return probes created through tracefs lose their offset. The kernel's reading of the structure is in EventSpec, an assumption."
  },
  {
   "property": "C81",
   "status": "proved",
   "theorems": [
    "C81_set",
    "C81_get",
    "C81_get_set"
   ],
   "note": "In full for both byte orders."
  },
  {
   "property": "C82",
   "status": "partial",
   "theorems": [
    "C82_created_partial",
    "C82_return_offset_refuted",
    "C82_target_refuted"
   ],
   "note": "For targets of letters, digits, underscore, dot, slash and hyphen. Refuted for other targets: a plus sign (libstdc++.so.6) ends up in the event name, which the kernel refuses, a blank ends the path, a number sign starts a comment. Refuted for return probes of kernel functions: the offset is dropped. The kernel's grammar is in ProbeCmdSpec, an assumption."
  },
  {
   "property": "C83",
   "status": "partial",
   "theorems": [
    "C83_stable",
    "C83_fits",
    "C83_grows",
    "C83_error",
    "C83_memory",
    "C83_tcx",
    "C83_lirc",
    "C83_device_refuted",
    "C83_device_failure_refuted"
   ],
   "note": "The result and the buffer in full. Unchanged for lirc devices and tcx. Refuted for CgroupDevice::query: it returns links that detach when dropped, so looking at the answer detaches every program attached without a BPF link, whoever attached it; a query that fails midway does too. The kernel's side of the query and of BPF_PROG_DETACH is in QueryModel, an assumption."
  },
  {
   "property": "C84",
   "status": "proved",
   "theorems": [
    "C84_struct",
    "C84_union",
    "C84_within",
    "C84_bpf",
    "C84_perf",
    "C84_btf",
    "C84_netlink",
    "C84_sizes"
   ],
   "note": "In full for the declarations listed in LayoutDecls, which are the same in the bindings of all nine architectures. The kernel's offsets are in LayoutSpec, taken from the kernel's headers."
  },
  {
   "property": "C85",
   "status": "partial",
   "theorems": [
    "C85_program",
    "C85_map",
    "C85_tag",
    "C85_name",
    "C85_name_missing",
    "C85_map_name",
    "C85_loaded_at",
    "C85_map_ids_partial",
    "C85_map_ids_fails",
    "C85_map_ids_missing",
    "C85_map_ids_refuted",
    "C85_gpl_partial",
    "C85_gpl_missing",
    "C85_gpl_refuted",
    "C85_memory",
    "C85_memory_exact"
   ],
   "note": "In full for little-endian hosts except map_ids and gpl_compatible, which are exact while the feature probe works. Refuted otherwise: the answer of a failed probe is kept for the rest of the process, after which no program has map ids or a license any more although the kernel reports both. Locked memory for up to 65535 pages, which is what the kernel can have; a larger number would panic."
  },
  {
   "property": "C86",
   "status": "partial",
   "theorems": [
    "C86_request",
    "C86_done",
    "C86_no_room",
    "C86_no_room_ctx",
    "C86_fails",
    "C86_unloaded",
    "C86_empty_ctx",
    "C86_memory_partial",
    "C86_memory_refuted",
    "C86_raw_tp",
    "C86_raw_tp_request",
    "C86_tracing",
    "C86_attrs",
    "C86_live",
    "C86_kinds",
    "C86_default",
    "C86_offered"
   ],
   "note": "Refuted for an empty `data_out` slice: the kernel takes a size of 0 for the absence of a limit, and the address of an empty slice is not null, so it writes the whole packet past the end of the slice (C86_memory_refuted); with `None` or a slice of at least one byte only the buffers change (C86_memory_partial), also for slices so long that their length is truncated. Empty context slices are refused by the kernel (C86_empty_ctx). On ENOSPC the size the kernel reports is lost with the error. The kernel side (bpf_test_finish, bpf_ctx_finish, the checks of the three handlers) is modelled from net/bpf/test_run.c; every address is taken to be mapped."
  },
  {
   "property": "C87",
   "status": "partial",
   "theorems": [
    "C87_pin",
    "C87_pin_name",
    "C87_pin_none",
    "C87_pin_btf_gone",
    "C87_pin_refuted",
    "C87_info",
    "C87_info_type",
    "C87_info_made",
    "C87_info_gone",
    "C87_info_without",
    "C87_info_kind_partial",
    "C87_info_kind_refuted",
    "C87_types",
    "C87_map",
    "C87_map_id",
    "C87_map_none",
    "C87_map_refuted",
    "C87_link_pin",
    "C87_link",
    "C87_link_info",
    "C87_link_refuted",
    "C87_nul_refuted"
   ],
   "note": "Handles from ProgramInfo check the type and refer to the program with that number; map handles carry the reported definition; FdLink conversions check the link type. C87_pin_refuted: from_pin of any kind of program accepts any pinned program, map or link. C87_info_kind_refuted: Iter and Lsm accept other kinds with the same type through a safe function. C87_map_refuted and C87_link_refuted: a pinned program is accepted as a map and as a link. C87_nul_refuted: a zero byte in a path panics for programs and links. Calls of the kernel fail only for objects that are not there."
  },
  {
   "property": "C88",
   "status": "proved",
   "theorems": [
    "C88_bytes",
    "C88_found",
    "C88_right",
    "C88_first",
    "C88_missing",
    "C88_no_btf",
    "C88_nothing",
    "C88_load",
    "C88_attach",
    "C88_attach_to",
    "C88_same_load"
   ],
   "note": "For BTF in the layout Btf::to_bytes writes, at most BTF_MAX_SIZE long and with a name for every function (the kernel demands both). Of several functions with the same name the first is taken. The kernel side (btf_get_info_by_fd) is modelled from its source. Errors other than missing objects are not modelled."
  },
  {
   "property": "C89",
   "status": "partial",
   "theorems": [
    "C89_legacy",
    "C89_legacy_forms",
    "C89_btf_partial",
    "C89_btf_inner_partial",
    "C89_section",
    "C89_agree",
    "C89_request",
    "C89_kernel",
    "C89_check",
    "C89_check_only",
    "C89_handle",
    "C89_handle_only",
    "C89_check_refuted",
    "C89_nested_refuted"
   ],
   "note": "BTF forms are read right for types with at most one array dimension; C89_nested_refuted: the value size of an array of arrays is wrong and the kernel refuses the map. C89_check_refuted: map types without a compile-time check (arrays) can be declared without entries. What rustc and bpf-linker write for a struct is assumed (field_is); the kernel's rules for map creation are modelled from its sources, without limits on memory."
  },
  {
   "property": "C90",
   "status": "proved",
   "theorems": [
    "C90_memset",
    "C90_memcpy",
    "C90_memmove",
    "C90_memset_touches",
    "C90_memcpy_touches",
    "C90_memmove_touches",
    "C90_memcpy_apart_needed"
   ],
   "note": "Proved for all addresses below 2^64 and buffers that do not leave the address space. C90_memcpy_apart_needed shows that the hypothesis of memcpy is needed, as in C."
  },
  {
   "property": "C91",
   "status": "partial",
   "theorems": [
    "C91_arg_partial",
    "C91_arg_missing_partial",
    "C91_ret_partial",
    "C91_words",
    "C91_fexit",
    "C91_narrow_refuted",
    "C91_arm_first_partial",
    "C91_i128_refuted"
   ],
   "note": "Partial: proved for the 64 bit architectures and for types of at most 64 bits. C91_narrow_refuted: on 32 bit arm and mips the register structures in the bindings use 64 bit registers, because programs are built for the 64 bit BPF target, while the kernel saves 32 bit ones, so the second argument is another register's value (C91_arm_first_partial: the first is right on little-endian arm for types of at most 32 bits). C91_i128_refuted: a negative argument asked for as i128 comes out positive."
  },
  {
   "property": "C92",
   "status": "partial",
   "theorems": [
    "C92_read",
    "C92_read_buf",
    "C92_string",
    "C92_string_long",
    "C92_string_fault",
    "C92_string_count",
    "C92_bounds",
    "C92_comm",
    "C92_ids",
    "C92_adj_room",
    "C92_printk_arg",
    "C92_printk",
    "C92_printk_many",
    "C92_strncmp",
    "C92_load_partial",
    "C92_load_bytes",
    "C92_store_partial",
    "C92_store_flags",
    "C92_load_refuted",
    "C92_store_refuted",
    "C92_fields",
    "C92_fields_read",
    "C92_fields_written",
    "C92_sock_ops_arg",
    "C92_migrating_sk"
   ],
   "note": "Partial: load and store are proved for offsets below 2^32. C92_load_refuted and C92_store_refuted: an offset of 2^32 or more is cut to 32 bits, so one far behind the packet reads or overwrites its start instead of failing. The kernel's helpers are a specification written for this purpose; contexts are modelled with pointers of 64 bits and little-endian stores."
  },
  {
   "property": "C93",
   "status": "partial",
   "theorems": [
    "C93_hash",
    "C93_array",
    "C93_queue",
    "C93_stack",
    "C93_bloom",
    "C93_trie",
    "C93_trie_changes",
    "C93_devices",
    "C93_redirect_partial",
    "C93_broadcast",
    "C93_redirect_unknown",
    "C93_redirect_refuted",
    "C93_perf",
    "C93_sockets",
    "C93_results"
   ],
   "note": "Partial: redirecting is proved for flags the kernel knows. C93_redirect_refuted: with others the action given back is always XDP_ABORTED, not the lowest two bits of the flags as documented. Calls are taken one at a time: two CPUs storing through pointers into the same value at once are not interleaved byte by byte. The kernel's side is a specification written for this purpose, shared with C75."
  },
  {
   "property": "C94",
   "status": "proved",
   "theorems": [
    "C94_delivered",
    "C94_area",
    "C94_aligned",
    "C94_room",
    "C94_results"
   ],
   "note": "Calls are taken one at a time, a store being one byte; the order in which one CPU's stores become visible to another is the subject of C02. Entries are used as the types and the verifier demand: stores inside, each submitted or discarded once. The kernel's side (addresses, headers, positions) is a specification written for this purpose. Rings of 2 GiB are excluded, as in C01."
  },
  {
   "property": "C95",
   "status": "partial",
   "theorems": [
    "C95_programs",
    "C95_missing",
    "C95_undefined_refuted",
    "C95_alias_refuted",
    "C95_works"
   ],
   "note": "Partial: proved for objects with BTF or without references to the kernel, with one program per address, and under C07 and C09's conditions that programs do not use programs and that the functions a program needs have different addresses; for these relocating works exactly when everything that is referred to exists. C95_undefined_refuted: in an object without BTF undefined symbols are not refused; a call of one is taken for a relative call, as the first instruction of a function for a call of that function. C95_alias_refuted: with two program symbols for one address the function is linked twice and contains its callees twice."
  },
  {
   "property": "C96",
   "status": "partial",
   "theorems": [
    "C96_result",
    "C96_btf_refused",
    "C96_btf_kinds",
    "C96_target_step",
    "C96_target_once",
    "C96_target_cached",
    "C96_target_missing",
    "C96_target_weak",
    "C96_works",
    "C96_code",
    "C96_early",
    "C96_forced_refuted",
    "C96_leftover_refuted",
    "C96_sanitized_refuted"
   ],
   "note": "Partial: the object is given as parsed (C97 adds parsing), feature probes are assumed to be constant, and the BTF of maps is not modelled. C96_forced_refuted: a program the caller makes an extension is not counted among those that need BTF, so that it is loaded without. C96_leftover_refuted: maps of an unsupported kind are refused only after all maps have been created and pinned; the pins stay. C96_sanitized_refuted: the object's BTF is changed in place for the running kernel before CO-RE relocation uses it; on a kernel without floating point types in BTF a member of such a type does not exist in any target."
  },
  {
   "property": "C97",
   "status": "partial",
   "theorems": [
    "C97_header",
    "C97_accepts",
    "C97_programs",
    "C97_functions",
    "C97_text",
    "C97_maps",
    "C97_relocs",
    "C97_infos",
    "C97_offsets",
    "C97_types",
    "C97_fresh",
    "C97_order",
    "C97_loaded_programs",
    "C97_loaded",
    "C97_works",
    "C97_refused",
    "C97_names_refuted",
    "C97_names_order_refuted",
    "C97_data_relocs_refuted"
   ],
   "note": "Partial: the ELF reader is not modelled (sections, symbols and relocations are given) and acceptance of the BTF is stated in terms of its parser. C97_names_refuted, C97_names_order_refuted: of two programs of the same name in different sections one is lost without an error, which one depends on the order of the sections. C97_data_relocs_refuted: relocations of data sections are dropped without an error, so that pointers in variables stay zero."
  },
  {
   "property": "C98",
   "status": "partial",
   "theorems": [
    "C98_attach",
    "C98_attach_demanded",
    "C98_attach_lsm",
    "C98_right_partial",
    "C98_never_wrong_partial",
    "C98_definite_partial",
    "C98_refused",
    "C98_closed",
    "C98_cached_partial",
    "C98_arena_refuted",
    "C98_stack_refuted",
    "C98_version_refuted",
    "C98_trampolines_refuted",
    "C98_lsm_refuted",
    "C98_license_refuted",
    "C98_info_refuted"
   ],
   "note": "Partial: the kernel is a model written from its sources and every theorem about right answers assumes it. Answers are not right in seven corners, each with a witness: arenas without JIT support are an error, stack traces with depth limit 0 are denied, kprobes on kernels wanting a version are denied when the version is unknown, tracing, LSM and cgroup LSM programs are affirmed when the kernel's BTF does not name the test function, the license is affirmed on 4.16 and 4.17, and program information is an error before 4.13."
  },
  {
   "property": "C99",
   "status": "partial",
   "theorems": [
    "C99_attach",
    "C99_detach",
    "C99_refused",
    "C99_convert",
    "C99_filter_stays",
    "C99_selector_stays",
    "C99_load",
    "C99_unload",
    "C99_pin",
    "C99_from_pin",
    "C99_freed",
    "C99_no_group",
    "C99_detach_no_group",
    "C99_detach_error_refuted",
    "C99_attach_error_refuted"
   ],
   "note": "Slots, conversion, lifetime and errors in full over a model of Linux's socket options, reuseport groups and program lifetime, which is an assumption. Two documented error numbers are refuted: ReusePortSocketFilter::detach on a socket in no group gives ENOENT, not EINVAL, when the socket has SO_REUSEPORT (C99_detach_error_refuted); SkReuseport::attach accepts a socket whose SO_REUSEPORT was cleared after binding (C99_attach_error_refuted)."
  },
  {
   "property": "C100",
   "status": "partial",
   "theorems": [
    "C100_bindings",
    "C100_complete",
    "C100_generator",
    "C100_ordered_partial",
    "C100_numbers_refuted",
    "C100_siblings_refuted",
    "C100_constants",
    "C100_works",
    "C100_reproduced"
   ],
   "note": "The checked-in bindings in full, as a table transcribed from the source, and the constants bpf_func_id of both sets of bindings, against the kernel's list of helpers, which is an assumption; the table is also what the generator makes of declarations in the kernel's order (C100_reproduced). For the generator: it panics exactly on statics that are not optional function pointers with named parameters (C100_works); numbers are positions, so it is right for headers that declare helpers in the kernel's order without gaps (C100_ordered_partial) and wrong otherwise (C100_numbers_refuted); a foreign module with a helper and something else is dropped whole (C100_siblings_refuted)."
  },
  {
   "property": "C101",
   "status": "partial",
   "theorems": [
    "C101_program",
    "C101_loader",
    "C101_map",
    "C101_order",
    "C101_twice",
    "C101_ignored_refuted",
    "C101_function_refuted"
   ],
   "note": "Acceptance, sections, contexts, results and maps in full for every attribute. That no accepted argument is without effect is refuted: the offset of a kprobe without a function (C101_ignored_refuted) and the function of a uprobe without a path (C101_function_refuted) are dropped. Tokens are modelled as far as the macros look at them; what the kernel passes and acts on is an assumption."
  },
  {
   "property": "C102",
   "status": "partial",
   "theorems": [
    "C102_get",
    "C102_get_held",
    "C102_get_absent",
    "C102_get_outside",
    "C102_get_unsuited",
    "C102_release",
    "C102_set",
    "C102_set_ok",
    "C102_set_unsuited",
    "C102_set_outside",
    "C102_remove",
    "C102_round_trip",
    "C102_reached",
    "C102_kept",
    "C102_race_type",
    "C102_race_partial",
    "C102_program_reads",
    "C102_program_sees",
    "C102_program_stores",
    "C102_inner_types",
    "C102_race_refuted"
   ],
   "note": "Partial: everything in full but the last sentence. Between the lookup and opening the number the map can go away and its number can be given to a new map, which get then returns although it never was in the outer map (C102_race_refuted); without such reuse of the number it cannot happen (C102_race_partial), and the type of the handle always suits the map (C102_race_type). The kernel's maps of maps are an assumption. Not said by the properties: the kernel would also take cgroup arrays and reuseport socket arrays as inner maps, for which aya has no type; get opens by number, for which the kernel asks CAP_SYS_ADMIN, while set does not."
  },
  {
   "property": "C103",
   "status": "partial",
   "theorems": [
    "C103_skipped",
    "C103_set_up",
    "C103_commands",
    "C103_outcome",
    "C103_copied",
    "C103_works",
    "C103_lines",
    "C103_one_line",
    "C103_same_name_refuted",
    "C103_aya_build_refuted"
   ],
   "note": "Partial: in full when the binaries of all packages have different names, none of them aya-build. Two packages with binaries of the same name build without error, and the later one silently replaces the earlier in OUT_DIR (C103_same_name_refuted). A binary called aya-build cannot be copied, since the directory of the builds is called so; the comment in the code names this collision for package names and avoids only that (C103_aya_build_refuted). What cargo does with its arguments and that it writes only below its target directory are assumptions; the order of the lines of its two outputs is fixed in the model."
  },
  {
   "property": "C104",
   "status": "partial",
   "theorems": [
    "C104_set",
    "C104_user",
    "C104_host",
    "C104_always",
    "C104_known",
    "C104_bindings",
    "C104_registers",
    "C104_chars_partial",
    "C104_mips_refuted",
    "C104_hosts_partial",
    "C104_hosts_refuted"
   ],
   "note": "Partial: for hosts whose triple begins with the name of the architecture, or with riscv64. For others with bindings, such as powerpc64le, armv7, mipsel or aarch64_be, the value is the beginning of the triple, for which there are no bindings (C104_hosts_refuted). For mips C characters are unsigned in programs, against the ABI and the table for hosts in the same file (C104_mips_refuted). Not said by the properties: HOST must be set even when AYA_BPF_TARGET_ARCH is."
  },
  {
   "property": "C105",
   "status": "partial",
   "theorems": [
    "C105_command",
    "C105_combine",
    "C105_works",
    "C105_errors",
    "C105_input",
    "C105_equals_refuted",
    "C105_clang_refuted",
    "C105_siblings_refuted"
   ],
   "note": "Partial: for a prefix given as two arguments. Given with an equals sign it is not recognised and bindgen gets the option twice, which it refuses (C105_equals_refuted); two such arguments after the double dash, meant for clang, are taken away (C105_clang_refuted). A header is copied alone into a temporary directory, so files it includes from beside it are not found (C105_siblings_refuted). Output of the tools that is not UTF-8, and headers with such names, panic. What bindgen's options mean and how its builder lists them are assumptions."
  },
  {
   "property": "C106",
   "status": "proved",
   "theorems": [
    "C106_accounts",
    "C106_works",
    "C106_errors",
    "C106_iter",
    "C106_file"
   ],
   "note": "For categories and names that are single path components; an absolute category is read from elsewhere (an example shows it). The kernel's events, links and descriptors are a model: a link lives while a descriptor or an open iterator refers to it, an event while it is open or a link to it lives. tracefs is looked for at every call instead of once."
  },
  {
   "property": "C107",
   "status": "proved",
   "theorems": [
    "C107_logged",
    "C107_reserved",
    "C107_ring",
    "C107_formatted",
    "C107_from_id",
    "C107_from_id_one"
   ],
   "note": "For values that can be shown as their hints ask: the macros ensure this except for the arrays C31 names. A call reserves in one step and stores byte after byte. The helpers of the ring buffer are the kernel model of C94; the level is constant while programs run. Whether a map named AYA_LOGS can be opened as a ring buffer is taken from the kernel."
  },
  {
   "property": "C108",
   "status": "partial",
   "theorems": [
    "C108_depmod",
    "C108_loads_partial",
    "C108_only",
    "C108_unknown",
    "C108_first",
    "C108_last_line",
    "C108_other_lines",
    "C108_quiet",
    "C108_name_refuted",
    "C108_empty_refuted",
    "C108_outside_refuted",
    "C108_release_refuted"
   ],
   "note": "Partial: loading is shown for aliases and names that fit into a line and modules below kernel of unique name. Refuted: the name of a module, which the documentation of modprobe allows, is not found; one module with an empty alias hides all modules after it; modules outside kernel are listed but not found; the directory named after the release of the kernel is never used. Decompression and ELF reading are functions; names have no characters special in glob patterns."
  },
  {
   "property": "C109",
   "status": "partial",
   "theorems": [
    "C109_read",
    "C109_contents",
    "C109_built",
    "C109_append",
    "C109_same_name_refuted"
   ],
   "note": "Partial: for names given once. Refuted otherwise: of two test programs of the same name in a profile only the last is there. The reader is a specification of the newc format and of the kernel's unpacking, with names up to PATH_MAX; entries over others of another kind do not occur. Writing to the archive works and the directory of modules has been walked."
  },
  {
   "property": "C110",
   "status": "partial",
   "theorems": [
    "C110_init",
    "C110_blamed",
    "C110_success",
    "C110_nothing_run",
    "C110_args_partial",
    "C110_verdict",
    "C110_done",
    "C110_failed",
    "C110_run_partial",
    "C110_archive",
    "C110_stop",
    "C110_local",
    "C110_local_failed",
    "C110_blank_refuted",
    "C110_printed_refuted",
    "C110_unended_refuted",
    "C110_panic_refuted",
    "C110_device_refuted"
   ],
   "note": "Partial: end to end for programs that print whole lines not beginning with 'init: ', and arguments without blanks. Refuted otherwise: an argument with a blank arrives cut; a program printing 'init: success', or not ending its last line, makes a run fail though all tests pass; a machine that panics after a program printed 'init: success' counts as success; a block device is taken for a directory to mount at. White space is ASCII. Starting the emulator works."
  },
  {
   "property": "C111",
   "status": "partial",
   "theorems": [
    "C111_links_partial",
    "C111_addresses",
    "C111_file_name",
    "C111_newest",
    "C111_candidates",
    "C111_chosen",
    "C111_none",
    "C111_packages",
    "C111_pair_refuted",
    "C111_twice_refuted",
    "C111_first_refuted",
    "C111_html_refuted",
    "C111_scheme_refuted"
   ],
   "note": "Partial: links are read right in pages of tags whose attributes all have quoted values, as Apache writes them. Refuted otherwise: a link in a comment counts, one behind an attribute without value or without quotes is lost; an address without scheme is taken for a path. Refuted: image and modules may belong to different kernels of a build (only the version is compared, not the whole name); a package linked twice is an error; the first release of a line, which has no third number, is never tried. White space is ASCII."
  },
  {
   "property": "C112",
   "status": "partial",
   "theorems": [
    "C112_whole",
    "C112_others",
    "C112_current",
    "C112_succeeds",
    "C112_run",
    "C112_failed",
    "C112_gone_refuted",
    "C112_tag_refuted"
   ],
   "note": "Proved with working file operations and a server whose tags stand for bodies. Refuted at two corners: the HTTP client gives errors for statuses of 400 and above, so a package the server no longer has counts as a network failure and the cached one is used; if the new tag cannot be written the old one stays beside the new file, which is then kept when the server goes back to the old one."
  },
  {
   "property": "C113",
   "status": "partial",
   "theorems": [
    "C113_parts_of_a_kernel",
    "C113_image_package_unpacked",
    "C113_modules_package_unpacked",
    "C113_one_member_with_data",
    "C113_nothing_outside",
    "C113_image_as_it_is",
    "C113_image_extracted",
    "C113_image_is_named_vmlinuz_refuted"
   ],
   "note": "Proved for every package with plain paths and every image; unpacking an entry and decompressing are functions. Refuted at one corner: a file in a directory named like an image counts as the image, since only the first component after boot is looked at. Examples show that a file in lib/modules counts as the directory and that the directory needs an entry of its own."
  },
  {
   "property": "C114",
   "status": "proved",
   "theorems": [
    "C114_behaves",
    "C114_one",
    "C114_loaded",
    "C114_file"
   ],
   "note": "Proved for objects with the shape compilers give them (tidy, one map per reference), for runs that do not leave a function by a jump or by its end, which the kernel does not accept. Arithmetic, memory and helpers are parameters of the machine, the same on both sides; callbacks are covered by the statement for every function entered by itself. Programs of fewer than 2^31 instructions."
  },
  {
   "property": "C115",
   "status": "proved",
   "theorems": [
    "C115_get",
    "C115_set",
    "C115_one",
    "C115_value",
    "C115_other",
    "C115_get_outside",
    "C115_set_outside",
    "C115_raw_get",
    "C115_raw_set",
    "C115_tables",
    "C115_read",
    "C115_write",
    "C115_new",
    "C115_insn"
   ],
   "note": "The layout of bit fields by C compilers (from the lowest bit on little-endian targets, from the highest on big-endian ones) and the kernel's declarations are stated in BitSpec.v from the kernel headers, which are not part of the repository. The debug per-structures of the s390x bindings of aya-ebpf are not tabulated; the theorems about units cover them."
  },
  {
   "property": "C116",
   "status": "proved",
   "theorems": [
    "C116_check",
    "C116_reads_only",
    "C116_all_reported",
    "C116_report",
    "C116_bless",
    "C116_bless_then_check",
    "C116_others_kept",
    "C116_bless_fails",
    "C116_committed",
    "C116_workspace"
   ],
   "note": "rustdoc and the crates public_api and diff are not part of the repository: the text of an interface is a function of package and target, and the alignment of two lists of lines is any that covers both in order and finds only common lines in equal lists. That diff::lines treats a final newline as one more empty line is taken from the documentation of the crate."
  },
  {
   "property": "C117",
   "status": "partial",
   "theorems": [
    "C117_supported",
    "C117_parse",
    "C117_show",
    "C117_headers",
    "C117_succeeds",
    "C117_right",
    "C117_complete",
    "C117_committed",
    "C117_user_file",
    "C117_user_only",
    "C117_bpf_dir",
    "C117_lint",
    "C117_lint_stops",
    "C117_lint_host",
    "C117_lint_covers_partial",
    "C117_doc_covers_partial",
    "C117_lint_covers_refuted",
    "C117_documented",
    "C117_linked",
    "C117_links",
    "C117_reached",
    "C117_updated"
   ],
   "note": "Partial because of clippy.rs 53-58: the list of packages for BPF lacks aya-ebpf-cty, whose c_char depends on the architecture, so it is linted and its documentation tested for none (C117_lint_covers_refuted). Which types bindgen is asked for, and the variables libbpf_sys_env adds, are not modelled."
  },
  {
   "property": "C118",
   "status": "partial",
   "theorems": [
    "C118_linux_partial",
    "C118_programs",
    "C118_unknown",
    "C118_once",
    "C118_modules",
    "C118_pairs",
    "C118_apple_refuted",
    "C118_redox_refuted"
   ],
   "note": "Partial: off Linux the aliases differ from C. Plain char of Apple's AArch64 is signed but the alias is not (C118_apple_refuted), and Redox with pointers of 32 bits has a long of 32 bits but the alias has 64 (C118_redox_refuted). The types of C on each target are from the psABIs and not part of /repo."
  }
 ]
}
