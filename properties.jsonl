{"id": "C01", "title": "Ring buffer reader delivers exactly the committed records, in order", "statement": "Reading a RingBuf map from user space yields precisely the payload bytes of the records that eBPF committed and did not discard, each once, in reservation order; a reserved-but-uncommitted record blocks everything behind it and nothing else; no read touches a byte outside the committed region.", "quantifier": "every ring size that is a power of two, every starting position (including positions that wrap the 32-bit page or the ring many times), every sequence of records of every length, every busy/discard pattern and every number of next()/drop calls", "why_tests_cant": "tests run a handful of record sizes on one kernel; wrap positions, discard placement and partial drains form an unbounded space", "anchors": [{"file": "aya/src/maps/ring_buf.rs", "symbols": ["RingBuf::next", "RingBufItem::drop", "ConsumerPos::consume", "ProducerData::next", "data_available", "read_item"]}]}
{"id": "C02", "title": "Ring buffer reader does not lose wake-ups", "statement": "If user space drains a RingBuf until next() returns None and then blocks waiting for readiness, then any record committed afterwards makes the kernel issue a notification, even though both sides' stores can be delayed in store buffers; next() therefore never goes to sleep on a ring that already holds a committed record it will not be notified about.", "quantifier": "every interleaving of the consumer's and producer's memory operations under a store-buffer (TSO) memory model, every number of records and consumer iterations", "why_tests_cant": "the race needs a specific weak-memory interleaving that a test cannot schedule on demand", "anchors": [{"file": "aya/src/maps/ring_buf.rs", "symbols": ["ProducerData::next", "data_available", "ConsumerPos::consume"]}]}
{"id": "C03", "title": "A ring buffer item stays intact while the caller holds it", "statement": "The bytes of an item returned by next() are not handed back to the kernel for reuse before the item is dropped, and the consumer position never overtakes the producer position.", "quantifier": "every interleaving of producer reservations (which must respect ring capacity against the published consumer position) and consumer operations", "why_tests_cant": "overwriting needs a full ring with a racing producer at exact positions", "anchors": [{"file": "aya/src/maps/ring_buf.rs", "symbols": ["RingBufItem", "ConsumerPos::consume"]}]}
{"id": "C04", "title": "Perf buffer reader delivers every sample intact and in order", "statement": "Iterating a perf buffer yields each sample's payload bytes exactly, in order, even when a record or its header is split across the end of the buffer; the count of each of the kernel's LOST records is reported unchanged; unknown record types are skipped; afterwards the space of exactly the records handed out is released.", "quantifier": "every power-of-two buffer size, every head/tail position including 64-bit wrap, every sequence of kernel records", "why_tests_cant": "split points depend on arbitrary modular positions; only a few are reachable in a test", "anchors": [{"file": "aya/src/maps/perf/perf_buffer.rs", "symbols": ["PerfBuffer::try_fold", "PerfBuffer::open"]}]}
{"id": "C05", "title": "A consumer that stops early keeps the unread perf events", "statement": "When the callback given to the perf buffer reader stops after the k-th event, exactly the first k events are consumed and a later read starts with event k+1; if no event was read the shared tail is not written.", "quantifier": "every record sequence and every stopping point", "why_tests_cant": "depends on every prefix of every sequence", "anchors": [{"file": "aya/src/maps/perf/perf_buffer.rs", "symbols": ["PerfBuffer::try_fold"]}]}
{"id": "C06", "title": "Map relocation points each map reference at the right map and touches nothing else", "statement": "After map relocation, an instruction carrying a map relocation loads the file descriptor of the map its symbol names (by symbol, else by section), with the pseudo source register for map-fd or map-value and, for global data, the offset symbol address + addend; every other instruction is bit-for-bit unchanged and the program length does not change.", "quantifier": "every object, every set of maps, every relocation list for a program section", "why_tests_cant": "the relocation tables come from compilers and linkers; combinations are unbounded", "anchors": [{"file": "aya-obj/src/relocation.rs", "symbols": ["Object::relocate_maps", "relocate_maps"]}]}
{"id": "C07", "title": "Function linking makes every call reach a copy of the function it named", "statement": "After call relocation, the loaded program is the entry function followed by the transitive callees; following any bpf-to-bpf call or function-address load in the result lands on the first instruction of a copy of the function that the call named in the object file, and apart from the patched immediates (and the pseudo register of address loads) each function body is unchanged.", "quantifier": "every object with any number of functions, text sections, call graphs (including recursion and mutual recursion) and relocation tables", "why_tests_cant": "call graphs and layouts are unbounded; a wrong displacement only shows on particular nesting orders", "anchors": [{"file": "aya-obj/src/relocation.rs", "symbols": ["Object::relocate_calls", "FunctionLinker::link", "FunctionLinker::link_function", "FunctionLinker::relocate"]}]}
{"id": "C08", "title": "Function linking terminates and includes each callee once", "statement": "Linking a program terminates for any call graph, including cycles, and the linked program contains each reachable callee exactly once and no unreachable function.", "quantifier": "every finite function table and call graph", "why_tests_cant": "termination and exact reachability are statements about all graphs", "anchors": [{"file": "aya-obj/src/relocation.rs", "symbols": ["FunctionLinker::link_function", "FunctionLinker::relocate"]}]}
{"id": "C09", "title": "Functions in different text sections are never confused", "statement": "Two distinct functions that happen to have the same address in different executable sections are linked as two functions; each call reaches the one in the section it referenced.", "quantifier": "every object with more than one text section", "why_tests_cant": "needs a particular coincidence of addresses across sections", "anchors": [{"file": "aya-obj/src/relocation.rs", "symbols": ["FunctionLinker::link_function"]}]}
{"id": "C10", "title": "Function and line info follow the code they describe", "statement": "After linking, every func_info/line_info record's instruction offset is the position in the linked program of the instruction it described in the object file; the records passed to the kernel start with the entry function's.", "quantifier": "every program and every func/line info table", "why_tests_cant": "offset arithmetic over arbitrary nesting of callees", "anchors": [{"file": "aya-obj/src/relocation.rs", "symbols": ["FunctionLinker::link_func_and_line_info", "FunctionLinker::link_function"]}]}
{"id": "C11", "title": "Kernel symbol relocation: kfunc and ksym references are resolved, poisoned when weak, rejected when strong", "statement": "After extern relocation each kfunc call carries the resolved BTF id and the kfunc pseudo register; each ksym load carries its BTF id or its full 64-bit address split over the two immediates; an unresolved weak kfunc becomes a call the verifier rejects by a recognisable helper number if reached; an unresolved weak variable loads 0; an unresolved strong symbol fails the load; other instructions are unchanged.", "quantifier": "every extern table, relocation list and instruction sequence", "why_tests_cant": "address splitting and weak/strong/bound combinations across any instruction stream", "anchors": [{"file": "aya-obj/src/relocation.rs", "symbols": ["Object::relocate_externs", "patch_extern_relocations", "poison_kfunc_call"]}]}
{"id": "C12", "title": "kallsyms resolution is unambiguous and order independent", "statement": "Resolving typeless ksyms against a kallsyms listing assigns each requested symbol the unique non-zero address listed for it; if two different addresses are listed the load is refused; a strong symbol without address is refused; a weak one becomes 0; the outcome does not depend on the order of the lines.", "quantifier": "every kallsyms text and every set of requested externs", "why_tests_cant": "kallsyms contents vary per boot; order-independence is a statement over permutations", "anchors": [{"file": "aya-obj/src/extern_types.rs", "symbols": ["resolve_kallsyms_from_reader", "resolve_typeless_externs"]}]}
{"id": "C13", "title": "BTF types survive encode/decode", "statement": "Reading back the bytes written for any BTF type yields the same type, consuming exactly the number of bytes the type reports as its size, independent of what follows.", "quantifier": "every BTF type of every kind with any number of members, parameters, variants or data section entries", "why_tests_cant": "vlen and field values are unbounded", "anchors": [{"file": "aya-obj/src/btf/types.rs", "symbols": ["BtfType::read", "BtfType::to_bytes", "BtfType::type_info_size"]}]}
{"id": "C14", "title": "A whole BTF blob survives encode/decode and type ids stay stable", "statement": "Parsing the bytes produced by Btf::to_bytes yields the same string table and the same type list in the same id order; adding a type or a string never changes the id of an existing type or the text of an existing string, and the returned handle resolves to what was added.", "quantifier": "every BTF built by any sequence of add_string/add_type starting from an empty BTF", "why_tests_cant": "induction over every construction history", "anchors": [{"file": "aya-obj/src/btf/btf.rs", "symbols": ["Btf::parse", "Btf::to_bytes", "Btf::add_type", "Btf::add_string", "Btf::string_at", "Btf::read_type_info"]}]}
{"id": "C15", "title": "Untrusted BTF strings never crash the loader", "statement": "Looking up a string by any offset in any parsed BTF returns either the string or an error; it never aborts the process.", "quantifier": "every BTF blob accepted by the parser and every 32-bit string offset", "why_tests_cant": "needs malformed offsets at specific distances from the table end", "anchors": [{"file": "aya-obj/src/btf/btf.rs", "symbols": ["Btf::string_at"]}]}
{"id": "C16", "title": "BTF sanitising only removes what the kernel lacks and keeps every type id in place", "statement": "Sanitising BTF for a kernel replaces each unsupported kind by a supported one at the same id, with the same encoded length unless an empty section gets a filler entry; it touches supported types only for the documented fixups, appends new types and strings only at the end, and stays a well-formed blob; the result contains no kind the kernel rejects and the process is never aborted.", "quantifier": "every BTF and every combination of kernel BTF features", "why_tests_cant": "feature combinations times type graphs", "anchors": [{"file": "aya-obj/src/btf/btf.rs", "symbols": ["Btf::fixup_and_sanitize"]}]}
{"id": "C17", "title": "BTF type size equals the C size", "statement": "The size computed for a BTF type equals the C size: pointer 8, array = element count product times element size, modifiers transparent, for all nestings; cyclic or over-deep chains are reported as an error rather than looping.", "quantifier": "every BTF type graph, including cyclic ones and multi-dimensional arrays", "why_tests_cant": "quantifies over arbitrary nestings", "anchors": [{"file": "aya-obj/src/btf/btf.rs", "symbols": ["Btf::type_size", "BtfTypes::resolve_type"]}]}
{"id": "C18", "title": "Type resolution strips modifiers and always terminates", "statement": "Resolving a type id follows const/volatile/restrict/typedef/type-tag links and returns the first non-modifier, or an error on unknown ids or chains deeper than the limit; it never loops.", "quantifier": "every type graph including cycles", "why_tests_cant": "cycles and depth boundary cannot be enumerated", "anchors": [{"file": "aya-obj/src/btf/btf.rs", "symbols": ["BtfTypes::resolve_type"]}]}
{"id": "C19", "title": "CO-RE type compatibility terminates and treats a type as compatible with itself", "statement": "Checking compatibility of two BTF types returns for every pair of BTFs (including self-referential function prototypes), and any well-formed type is compatible with itself.", "quantifier": "every pair of type graphs", "why_tests_cant": "cyclic graphs are rarely in test fixtures", "anchors": [{"file": "aya-obj/src/btf/types.rs", "symbols": ["types_are_compatible", "fields_are_compatible"]}]}
{"id": "C20", "title": "CO-RE field relocation extracts exactly the target field", "statement": "For a field (bitfield or not) that exists in the running kernel, the relocated byte offset/size and left/right shift values are such that the standard load-shift-shift sequence reads exactly the field's bits, sign- or zero-extended, from the kernel's layout, and the load does not reach outside the containing storage unit search bound.", "quantifier": "every bit offset, bitfield size 1..64, storage size and memory content", "why_tests_cant": "bit-level arithmetic over all offsets, sizes and memory contents", "anchors": [{"file": "aya-obj/src/btf/relocation.rs", "symbols": ["ComputedRelocation::compute_field_relocation"]}]}
{"id": "C21", "title": "CO-RE relocation patches only its instruction, or poisons it", "statement": "Applying a CO-RE relocation changes only the instruction it points at (plus the second slot of a 64-bit load), sets the immediate/offset to the computed target value with matching load width, rejects values that do not fit, and when the field does not exist replaces the instruction by a call the verifier rejects.", "quantifier": "every program, relocation and computed value", "why_tests_cant": "instruction class/width/value combinations", "anchors": [{"file": "aya-obj/src/btf/relocation.rs", "symbols": ["ComputedRelocation::apply", "poison_insn"]}]}
{"id": "C22", "title": "CO-RE candidate choice is unambiguous", "statement": "When several kernel types match, they are accepted only if all agree on the relocation result; the outcome does not depend on the order in which candidates are examined; a candidate whose essential name differs is never used.", "quantifier": "every candidate list in every order", "why_tests_cant": "order-independence is a statement over permutations", "anchors": [{"file": "aya-obj/src/btf/relocation.rs", "symbols": ["relocate_btf_functions", "find_candidates", "flavorless_name"]}]}
{"id": "C23", "title": "Flavoured names match their base name only", "statement": "A local type name with a ___flavour suffix is matched against kernel types of the name before the first ___; a name without ___ is matched as is.", "quantifier": "every name", "why_tests_cant": "string-splitting over all strings", "anchors": [{"file": "aya-obj/src/btf/relocation.rs", "symbols": ["flavorless_name"]}, {"file": "aya-obj/src/extern_types.rs", "symbols": ["essential_name"]}]}
{"id": "C24", "title": "Text section parsing yields functions that tile the section", "statement": "Parsing an executable section yields functions whose instruction ranges are contiguous, non-overlapping, cover the whole section and concatenate to its bytes; any gap, zero-sized or duplicated symbol is reported as an error.", "quantifier": "every section content and symbol table", "why_tests_cant": "symbol tables are unbounded", "anchors": [{"file": "aya-obj/src/obj.rs", "symbols": ["Object::parse_text_section"]}]}
{"id": "C25", "title": "Overriding a global writes exactly that variable", "statement": "Setting a global variable before load replaces exactly the bytes of that symbol in its section's data with the given bytes; wrong sizes and unknown required names are errors; all other bytes, maps and globals are unchanged; setting distinct non-overlapping globals commutes.", "quantifier": "every object, every set of (name, bytes) overrides in every order", "why_tests_cant": "order and overlap combinations", "anchors": [{"file": "aya-obj/src/obj.rs", "symbols": ["Object::patch_map_data"]}, {"file": "aya/src/bpf.rs", "symbols": ["EbpfLoader::override_global"]}]}
{"id": "C26", "title": "Helper fallback rewrites only unsupported probe_read calls", "statement": "On kernels without probe_read_{user,kernel}{,_str}, exactly the calls to those helpers are rewritten to probe_read{,_str}; every other instruction is unchanged; on kernels with the helpers nothing changes, and doing it twice is the same as once.", "quantifier": "every program and feature combination", "why_tests_cant": "all instruction encodings", "anchors": [{"file": "aya-obj/src/obj.rs", "symbols": ["Object::sanitize_functions"]}, {"file": "aya/src/bpf.rs", "symbols": ["EbpfLoader::load"]}]}
{"id": "C27", "title": "Object sections are classified unambiguously", "statement": "Each ELF section is interpreted as exactly one kind determined by its name (license, version, maps, BTF maps, text, data, BTF, BTF.ext) or, failing that, as a program when executable with relocations/section type conditions; license is NUL terminated, version is 4 bytes with the ANY magic mapped to none.", "quantifier": "every section name and content", "why_tests_cant": "prefix overlaps over all names", "anchors": [{"file": "aya-obj/src/obj.rs", "symbols": ["EbpfSectionKind::from_name", "parse_license", "parse_version"]}]}
{"id": "C28", "title": "Legacy map definitions decode field by field, short ones zero-filled", "statement": "A legacy map definition of at least the minimum length decodes each present 32-bit field in order, absent trailing optional fields read as zero, bytes past the structure are ignored, and shorter input is an error.", "quantifier": "every byte string", "why_tests_cant": "all lengths and contents", "anchors": [{"file": "aya-obj/src/obj.rs", "symbols": ["parse_map_def", "Object::parse_maps_section"]}]}
{"id": "C29", "title": "BTF map definitions do not depend on field order", "statement": "A BTF map definition yields the same map whatever the order of its fields, unknown fields are ignored, and sizes given by type or by number agree.", "quantifier": "every struct type and permutation of its members", "why_tests_cant": "permutations", "anchors": [{"file": "aya-obj/src/obj.rs", "symbols": ["parse_btf_map_struct", "get_map_field"]}]}
{"id": "C30", "title": "Log records round-trip from eBPF to user space", "statement": "A log record written by the eBPF side with any header strings, level, line and arguments is decoded by user space to the same fields and formatted arguments, in order; a record that would not fit its buffer is not emitted as a corrupt one; decoding one record of a concatenation leaves exactly the rest.", "quantifier": "every argument list, every string/byte content and every buffer capacity", "why_tests_cant": "unbounded argument lists and lengths", "anchors": [{"file": "aya-log-common/src/lib.rs", "symbols": ["Header", "Field::write", "Argument"]}, {"file": "aya-log/src/lib.rs", "symbols": ["log_buf"]}]}
{"id": "C31", "title": "Every log format the macro accepts can be rendered", "statement": "If the log macros accept a format hint for an argument type at compile time, user space can render it; rendering never aborts the logging task.", "quantifier": "every (format hint, argument type) pair accepted", "why_tests_cant": "the matrix includes pairs no test uses", "anchors": [{"file": "aya-log-ebpf-macros/src/expand.rs", "symbols": ["log"]}, {"file": "aya-log/src/lib.rs", "symbols": ["Format", "Argument formatting"]}, {"file": "aya-log-common/src/lib.rs", "symbols": ["LowerHexFormatter"]}]}
{"id": "C32", "title": "Log format strings parse like Rust's format strings", "statement": "Parsing a log format string splits it into literals and parameters such that re-escaping the fragments gives back the input; stray braces are rejected.", "quantifier": "every string", "why_tests_cant": "all strings", "anchors": [{"file": "aya-log-parser/src/lib.rs", "symbols": ["parse", "push_literal", "parse_param"]}]}
{"id": "C33", "title": "Every attachment is detached exactly once", "statement": "For links kept by a program, taken out by the user, explicitly detached, or dropped, each kernel attachment is detached exactly once over its lifetime and never after ownership was deliberately released (forgotten fd, pinned).", "quantifier": "every history of attach, detach, take_link, into inner, pin, drop and unload operations", "why_tests_cant": "operation histories are unbounded", "anchors": [{"file": "aya/src/programs/links.rs", "symbols": ["Links::insert", "Links::remove", "Links::forget", "Links::remove_all", "define_link_wrapper", "FdLink"]}]}
{"id": "C34", "title": "A failed attach leaves existing attachments alone", "statement": "If attach returns an error, every attachment that existed before is still in place in the kernel and still tracked.", "quantifier": "every attach history, including attaching the same program to the same target twice", "why_tests_cant": "needs specific repeated-attach histories per link kind", "anchors": [{"file": "aya/src/programs/links.rs", "symbols": ["Links::insert"]}, {"file": "aya/src/programs/xdp.rs", "symbols": ["Xdp::attach_to_if_index"]}]}
{"id": "C35", "title": "Netlink attributes round-trip", "statement": "A list of netlink attributes (nested ones included) written into a buffer is read back identically by the attribute iterator, every attribute starts at a 4-byte boundary, and padding never leaks into payloads.", "quantifier": "every attribute list and payload length", "why_tests_cant": "all lengths modulo alignment and nestings", "anchors": [{"file": "aya/src/sys/netlink.rs", "symbols": ["NestedAttrs", "write_attr_bytes", "NlAttrsIterator::next"]}]}
{"id": "C36", "title": "Netlink parsing is safe on arbitrary bytes", "statement": "Iterating attributes of, and reading messages from, any byte string never reads out of bounds, terminates, and reports malformed lengths as errors after which iteration ends.", "quantifier": "every byte string", "why_tests_cant": "all malformed inputs", "anchors": [{"file": "aya/src/sys/netlink.rs", "symbols": ["NlAttrsIterator::next", "NetlinkMessage::read"]}]}
{"id": "C37", "title": "TC and XDP netlink requests always fit their buffers", "statement": "Building an XDP or TC attach/detach request never overruns the fixed request buffer for the longest permitted program name, and the message length in the header equals the bytes written.", "quantifier": "every permitted name, flags and ids", "why_tests_cant": "boundary lengths", "anchors": [{"file": "aya/src/sys/netlink.rs", "symbols": ["netlink_qdisc_attach", "netlink_set_xdp_fd", "write_tc_attach_attrs"]}]}
{"id": "C38", "title": "Kernel version codes order like versions", "statement": "Comparing kernel versions is a total order agreeing with (major, minor, patch), and the numeric code passed to the kernel is strictly consistent with that order within patch-clamped versions.", "quantifier": "every pair of versions", "why_tests_cant": "boundary at patch 255/256 on particular lines", "anchors": [{"file": "aya/src/util.rs", "symbols": ["KernelVersion::code", "KernelVersion::cmp"]}]}
{"id": "C39", "title": "CPU range lists parse to the CPUs they denote", "statement": "Parsing a kernel cpu list such as 0-3,5 yields exactly the denoted CPU numbers in order; malformed lists are errors.", "quantifier": "every rendered cpu set", "why_tests_cant": "all sets", "anchors": [{"file": "aya/src/util.rs", "symbols": ["parse_cpu_ranges"]}]}
{"id": "C40", "title": "Ring buffer maps get the smallest legal size that fits", "statement": "The size used for a ring buffer map is a power-of-two multiple of the page size, at least the requested size and the smallest such; 0 stays 0.", "quantifier": "every requested size and every power-of-two page size", "why_tests_cant": "boundary sizes, overflow near 2^32", "anchors": [{"file": "aya/src/bpf.rs", "symbols": ["adjust_to_page_size", "max_entries_override", "value_size_override"]}]}
{"id": "C41", "title": "Per-CPU values round-trip", "statement": "Values written to a per-CPU map for each CPU are read back in the same CPU order; the kernel buffer has 8-byte aligned slots; a value list whose length differs from the CPU count is rejected.", "quantifier": "every CPU count and value size", "why_tests_cant": "cpu counts and odd sizes not available on a test machine", "anchors": [{"file": "aya/src/maps/mod.rs", "symbols": ["PerCpuValues::try_from", "PerCpuValues::build_kernel_mem", "PerCpuValues::from_kernel_mem"]}]}
{"id": "C42", "title": "Iterating a map visits each entry exactly once and ends", "statement": "On a map that is not concurrently modified, iterating keys (or entries) yields each exactly once and then ends, and keeps ending; an error is reported once and ends iteration; entries deleted between key and value lookup are skipped silently.", "quantifier": "every map content and order, every failure point", "why_tests_cant": "all contents and failure points", "anchors": [{"file": "aya/src/maps/mod.rs", "symbols": ["MapKeys::next", "MapIter::next"]}]}
{"id": "C43", "title": "Multi-location uprobe attach keeps cookies with their locations", "statement": "When attaching to several points, each resolved location is attached with the cookie given for that point, 0 if none was given while others were, and no cookie array is passed when no point has one.", "quantifier": "every list of points", "why_tests_cant": "positions of the first cookie over all lists", "anchors": [{"file": "aya/src/programs/uprobe.rs", "symbols": ["resolve_points"]}]}
{"id": "C44", "title": "Multi-location attach is all or nothing", "statement": "When attaching a probe to many locations without kernel multi support fails at some location, all earlier locations are detached; on success all are attached in order; detaching the returned link detaches every one.", "quantifier": "every list and failure point", "why_tests_cant": "failure injection at each index", "anchors": [{"file": "aya/src/programs/uprobe.rs", "symbols": ["attach_single_impl"]}, {"file": "aya/src/programs/probe.rs", "symbols": ["ManyProbeLinks", "ProbeLinkInner"]}]}
{"id": "C45", "title": "Resolving many symbols at once equals resolving each alone", "statement": "Batch symbol resolution gives each symbol the same offset (or the same kind of failure) as resolving it individually, preferring the dynamic table over the static one and the object itself over its debug companion.", "quantifier": "every symbol list (duplicates included) and every pair of object files", "why_tests_cant": "all tables", "anchors": [{"file": "aya/src/programs/uprobe.rs", "symbols": ["resolve_pending_offsets", "resolve_symbols_in_object", "resolve_symbol"]}]}
{"id": "C46", "title": "Verifier-log retry loop is bounded and faithful", "statement": "Loading a program calls the kernel at most retries+1 times, returns the first success, otherwise the last error with the log of the last attempt; buffer sizes grow and never exceed the kernel limit.", "quantifier": "every sequence of kernel outcomes", "why_tests_cant": "arbitrary outcome sequences", "anchors": [{"file": "aya/src/sys/bpf.rs", "symbols": ["retry_with_verifier_logs"]}]}
{"id": "C47", "title": "Program load/unload state machine", "statement": "A program is loaded into the kernel at most once at a time; loading again is refused; unloading detaches all links before the fd is closed; attach operations require a loaded program; dropping the handle unloads.", "quantifier": "every history of load, unload, attach, detach, take and drop", "why_tests_cant": "histories", "anchors": [{"file": "aya/src/programs/mod.rs", "symbols": ["load_program", "unload_program", "ProgramData"]}]}
{"id": "C48", "title": "Pinned maps are shared, not recreated", "statement": "Loading an object whose map is pinned by name twice yields the same kernel map; a pinned map is created at most once; a load that reuses a pinned read-only map succeeds.", "quantifier": "every sequence of loads over a bpf filesystem state", "why_tests_cant": "sequences of loads with frozen maps", "anchors": [{"file": "aya/src/maps/mod.rs", "symbols": ["MapData::create_pinned_by_name", "MapData::finalize"]}, {"file": "aya/src/bpf.rs", "symbols": ["EbpfLoader::load"]}]}
{"id": "C49", "title": "TC handle and link order encodings are faithful", "statement": "TcHandle conversion between u32 and (major, minor) is a bijection; each LinkOrder constructor produces the kernel flag combination and object reference it names.", "quantifier": "every 32-bit value", "why_tests_cant": "2^32 values", "anchors": [{"file": "aya/src/programs/tc.rs", "symbols": ["TcHandle"]}, {"file": "aya/src/programs/links.rs", "symbols": ["LinkOrder"]}]}
{"id": "C50", "title": "Kernel feature probing happens at most once and never lies under races", "statement": "Concurrent queries for a kernel feature all observe the same answer and the probe runs once.", "quantifier": "every interleaving of threads", "why_tests_cant": "races", "anchors": [{"file": "aya/src/kernel_features.rs", "symbols": ["FeatureProbe"]}]}
{"id": "C51", "title": "Symbol-relative uprobe addresses translate exactly", "statement": "A virtual address is converted to a file offset only if it lies in a segment, and then address - segment start + segment file offset without overflow; out-of-range addresses are rejected.", "quantifier": "every segment table and 64-bit address", "why_tests_cant": "boundary addresses", "anchors": [{"file": "aya/src/programs/uprobe.rs", "symbols": ["UProbeAttachPoint::from_virtual_address", "symbol_translated_address"]}]}
{"id": "C52", "title": "ld.so.cache lookups are safe and find the right library", "statement": "Parsing an ld.so.cache (old or new format) yields its entries; resolving a name returns the path of the first entry whose name matches; malformed caches are errors, never crashes.", "quantifier": "every byte string / every rendered cache", "why_tests_cant": "malformed inputs", "anchors": [{"file": "aya/src/programs/uprobe.rs", "symbols": ["LdSoCache::parse", "LdSoCache::resolve"]}]}
{"id": "C53", "title": "/proc maps entries parse field by field", "statement": "Each line of /proc/<pid>/maps parses to its addresses, offset, inode and path, paths with spaces included, and lookup by library name selects the right mapping.", "quantifier": "every rendered line", "why_tests_cant": "all paths and inode numbers", "anchors": [{"file": "aya/src/programs/uprobe.rs", "symbols": ["ProcMapEntry::parse", "split_ascii_whitespace_n", "ProcMap::find_library_path_by_name"]}]}
{"id": "C54", "title": "Legacy probe events are cleaned up and never clobber another process's event", "statement": "A created tracefs probe event is removed exactly once on detach or on failed attach, and removal never targets another event whose name merely extends it.", "quantifier": "every set of existing events and every attach outcome", "why_tests_cant": "prefix-related aliases", "anchors": [{"file": "aya/src/programs/probe.rs", "symbols": ["create_probe_event", "delete_probe_event", "ProbeEvent"]}]}
{"id": "C55", "title": "BTF.ext sections parse to per-section records", "statement": "The func_info, line_info and core_relo tables are split by section exactly as encoded, for any record size at least the expected one; function and line records get instruction numbers, relocation records keep byte offsets; no input aborts the process.", "quantifier": "every encoded table", "why_tests_cant": "all table shapes", "anchors": [{"file": "aya-obj/src/btf/btf.rs", "symbols": ["BtfExt::parse", "SecInfoIter"]}, {"file": "aya-obj/src/btf/info.rs", "symbols": ["FuncSecInfo::parse", "LineSecInfo::parse"]}]}
{"id": "C56", "title": "CO-RE access strings denote C offsets", "statement": "An access string resolved against the program's own BTF yields the accessors and the bit offset C gives to that expression; an index outside a bounded array or member list is an error, while the flexible last array of a struct may be indexed freely.", "quantifier": "every BTF, type and access string", "why_tests_cant": "arbitrary nesting of structs and arrays", "anchors": [{"file": "aya-obj/src/btf/relocation.rs", "symbols": ["AccessSpec::new", "AccessSpec::type_name"]}]}
{"id": "C57", "title": "CO-RE field matching follows names through the kernel's layout", "statement": "When a kernel candidate is matched, the resulting bit offset is the one the kernel's own BTF gives to the same chain of member names and array indices, looking through anonymous members; matching terminates on every BTF.", "quantifier": "every pair of BTFs and every access", "why_tests_cant": "recursion through anonymous members", "anchors": [{"file": "aya-obj/src/btf/relocation.rs", "symbols": ["match_candidate", "match_member"]}]}
{"id": "C58", "title": "Each CO-RE relocation reaches its own instruction", "statement": "Relocating an object carries out every CO-RE relocation exactly once, in the function of its section that contains the instruction, with the value the relocation has on its own; instructions no relocation points at, and everything else about the functions, stay as they were; a relocation outside every function is an error.", "quantifier": "every object and relocation table", "why_tests_cant": "section and function bookkeeping, cached state between relocations", "anchors": [{"file": "aya-obj/src/btf/relocation.rs", "symbols": ["Object::relocate_btf", "relocate_btf_functions", "is_relocation_inside_function", "function_by_relocation"]}]}
{"id": "C59", "title": "CO-RE enum and type relocations use the kernel's values", "statement": "An enumerator relocation yields the value of the kernel enumerator of the same essential name, whatever the width and signedness of the kernel's enum; type relocations yield the local id, the candidate's id, its existence or its size.", "quantifier": "every pair of BTFs", "why_tests_cant": "signedness and width combinations", "anchors": [{"file": "aya-obj/src/btf/relocation.rs", "symbols": ["compute_enum_relocation", "compute_type_relocation", "match_enum"]}]}
{"id": "C60", "title": "Program sections yield one program per function symbol", "statement": "A program section yields exactly one program for every named function symbol in it, of the section's kind, with the symbol's address and exactly the symbol's bytes as instructions; symbols that do not describe whole instructions inside the section are reported as errors.", "quantifier": "every section content and symbol table", "why_tests_cant": "all symbol tables", "anchors": [{"file": "aya-obj/src/obj.rs", "symbols": ["Object::parse_programs", "Object::parse_program"]}]}
{"id": "C61", "title": "Section names denote program kinds unambiguously", "statement": "A section name is read as a program kind exactly when it is a spelling of that kind, possibly followed by the components a kind allows, such as xdp/program_name or sk_skb/stream_verdict/program_name; other names are errors.", "quantifier": "every section name", "why_tests_cant": "all names", "anchors": [{"file": "aya-obj/src/obj.rs", "symbols": ["ProgramSection::from_str"]}]}
{"id": "C62", "title": "Program macros and the loader agree on section names", "statement": "Whatever the arguments, the section name a program attribute macro emits is classified as a program section and read by the loader as the kind of program the macro is for; probe programs get the context type of their kind.", "quantifier": "every macro and every argument", "why_tests_cant": "arbitrary function, path and hook names", "anchors": [{"file": "aya-ebpf-macros/src/uprobe.rs", "symbols": ["UProbe::expand"]}, {"file": "aya-ebpf-macros/src/kprobe.rs", "symbols": ["KProbe::expand"]}, {"file": "aya-obj/src/obj.rs", "symbols": ["ProgramSection::from_str", "EbpfSectionKind::from_name"]}]}
{"id": "C63", "title": "Kernel symbols are settled before relocation", "statement": "After a successful resolution every typed kernel symbol names a kernel type of its kind and essential name that is compatible with it, or is weak and null; a strong one without such a type refuses the load; no relocation against a collected symbol is then unresolvable, and a 64-bit load of a typeless symbol receives exactly the listed address.", "quantifier": "every pair of BTFs, every kallsyms text and every set of externs", "why_tests_cant": "combinations of typed, typeless, weak and strong symbols", "anchors": [{"file": "aya-obj/src/extern_types.rs", "symbols": ["Object::resolve_externs", "resolve_typed_externs", "resolve_extern_function", "resolve_extern_variable"]}, {"file": "aya-obj/src/btf/extern_types.rs", "symbols": ["process_datasec_entry"]}, {"file": "aya-obj/src/relocation.rs", "symbols": ["patch_extern_relocations"]}]}
{"id": "C64", "title": "Netlink replies are understood completely", "statement": "From any sequence of well-formed reply datagrams every data message up to the end of the answer is delivered once and in order, acknowledgements are skipped and an error reply fails with its error number and texts; looking TC filters up by name finds exactly the filters with that name with their priority and handle, and attaching returns priority and handle of the one filter the kernel reports.", "quantifier": "every sequence of well-formed datagrams and every set of filters", "why_tests_cant": "all splits into datagrams and all positions of acknowledgements, errors and end marks", "anchors": [{"file": "aya/src/sys/netlink.rs", "symbols": ["NetlinkSocket::recv", "netlink_qdisc_attach", "netlink_find_filter_with_name"]}, {"file": "aya/src/programs/tc.rs", "symbols": ["qdisc_detach_program"]}]}
{"id": "C65", "title": "XDP over netlink attaches, replaces and detaches what is meant", "statement": "Under the kernel's rule for XDP programs set over netlink, the attach request succeeds where no program is attached and never displaces one, the request that replaces a link's program replaces it, and the detach request removes only the expected program.", "quantifier": "every mode and pair of programs", "why_tests_cant": "interfaces with and without a program, equal and different expected programs", "anchors": [{"file": "aya/src/sys/netlink.rs", "symbols": ["netlink_set_xdp_fd"]}, {"file": "aya/src/programs/xdp.rs", "symbols": ["Xdp::attach_to_link", "NlLink::detach"]}]}
{"id": "C66", "title": "The running kernel's version is detected from the right source", "statement": "The kernel version is the one the Ubuntu signature gives if there is one, else the one after Debian in the version string, else that of the release; version texts parse exactly, numbers out of range are errors, and the at-least test agrees with the order of versions.", "quantifier": "every content of the three texts", "why_tests_cant": "distribution kernels not available on a test machine", "anchors": [{"file": "aya/src/util.rs", "symbols": ["KernelVersion::get_kernel_version", "KernelVersion::parse_kernel_version_string", "KernelVersion::get_ubuntu_kernel_version", "KernelVersion::get_debian_kernel_version", "KernelVersion::at_least"]}]}
{"id": "C67", "title": "Kernel symbol listings map addresses to names", "statement": "Reading /proc/kallsyms yields for every line its address and the symbol's name, module symbols included; a malformed line is an error.", "quantifier": "every rendered listing", "why_tests_cant": "all addresses, names and modules", "anchors": [{"file": "aya/src/util.rs", "symbols": ["kernel_symbols", "parse_kernel_symbols"]}]}
{"id": "C68", "title": "Iterating kernel objects visits each id once", "statement": "Iterating the ids of loaded programs, maps or links yields each id once in ascending order and then ends for good; an error is reported once and ends the iteration for good.", "quantifier": "every set of ids and every failure point", "why_tests_cant": "all sets and failure points", "anchors": [{"file": "aya/src/sys/bpf.rs", "symbols": ["iter_obj_ids", "iter_prog_ids", "iter_link_ids", "iter_map_ids"]}]}
{"id": "C69", "title": "A probe fires for the processes asked for", "statement": "For every scope (all processes, the calling one, one given) the process numbers handed to the kernel, for a perf event as well as for a multi link, make the probe fire for exactly those processes, and the mappings searched for libraries are those of that process.", "quantifier": "every scope and every process number", "why_tests_cant": "all processes of a system", "anchors": [{"file": "aya/src/programs/uprobe.rs", "symbols": ["UProbeScope", "UProbe::attach"]}, {"file": "aya/src/sys/perf_event.rs", "symbols": ["perf_event_open_probe", "perf_event_open_trace_point"]}]}
{"id": "C70", "title": "Attach targets resolve to the file meant", "statement": "A target with a slash is used as it is; a bare name resolves to the first file of that name the process has mapped, else to the first entry of that name in the library cache, else the attach fails.", "quantifier": "every target, every set of mappings and every cache", "why_tests_cant": "arbitrary mappings and caches", "anchors": [{"file": "aya/src/programs/uprobe.rs", "symbols": ["resolve_attach_target", "is_basename_only", "resolve_attach_target_basename"]}]}
{"id": "C71", "title": "Unpinning a program removes what pinning it made", "statement": "After a successful pin the path holds the program and no other path changed; a following unpin brings the files back; at any time unpin removes nothing but pins of that program, and after it no pin the program made is left.", "quantifier": "every history of pin, unpin, load and of files made by others", "why_tests_cant": "histories with failing calls", "anchors": [{"file": "aya/src/programs/mod.rs", "symbols": ["pin_program", "impl_program_pin", "ProgramData"]}]}
{"id": "C72", "title": "A loaded map has the shape the object asks for", "statement": "Every map a load returns has the type, sizes, number of entries and flags the object asks for, and initialising it reads no byte outside of the object's data.", "quantifier": "every map, loader and state of the bpf filesystem", "why_tests_cant": "arbitrary pinned maps", "anchors": [{"file": "aya/src/maps/mod.rs", "symbols": ["MapData::create", "MapData::create_pinned_by_name", "MapData::finalize"]}, {"file": "aya/src/sys/bpf.rs", "symbols": ["bpf_create_map", "bpf_map_update_elem_ptr"]}]}
{"id": "C73", "title": "Typed map handles only match maps of their type and element sizes", "statement": "A typed map handle can be made from a map exactly if the map's kernel type is one the handle documents and its key and value sizes are those the handle reads and writes; maps of an object and maps found in the kernel are classified alike; a map created through a handle, or CPU and device maps created by a load, can be opened as that handle.", "quantifier": "every map shape, handle and element size", "why_tests_cant": "arbitrary maps and Map variants", "anchors": [{"file": "aya/src/maps/mod.rs", "symbols": ["Map::from_map_data", "impl_try_from_map", "check_kv_size", "check_v_size"]}, {"file": "aya/src/bpf.rs", "symbols": ["parse_map"]}, {"file": "aya/src/maps/stack_trace.rs", "symbols": ["StackTraceMap::new"]}, {"file": "aya/src/maps/xdp/cpu_map.rs", "symbols": ["CpuMap::new"]}]}
{"id": "C74", "title": "Typed map access stays within the caller's memory", "statement": "For every method of a typed map handle, the kernel reads and writes exactly the key and value memory that the library passes to it: key_size bytes for keys, value_size bytes (rounded up to 8 and once per possible CPU for per-CPU maps) for values; indices past the end of an array are refused without asking the kernel.", "quantifier": "every handle, method, argument of its types and number of CPUs", "why_tests_cant": "arbitrary maps the handle can be made from", "anchors": [{"file": "aya/src/sys/bpf.rs", "symbols": ["lookup", "bpf_map_lookup_elem_per_cpu", "bpf_map_update_elem", "bpf_map_get_next_key", "bpf_map_push_elem", "bpf_map_peek_elem"]}, {"file": "aya/src/maps/mod.rs", "symbols": ["check_bounds", "check_kv_size", "PerCpuValues"]}, {"file": "aya/src/maps/xdp/dev_map.rs", "symbols": ["DevMap::set"]}, {"file": "aya/src/maps/stack_trace.rs", "symbols": ["StackTraceMap::get"]}]}
{"id": "C75", "title": "Typed map operations are faithful", "statement": "Sequences of calls on a typed handle behave as the data structure it is named for: finite maps for hash maps (plain and per-CPU), arrays, first-in-first-out queues, stacks, Bloom filters without false negatives, longest-prefix-match tries, targets with programs for CPU and device maps; stack traces are returned in order and without padding.", "quantifier": "every sequence of calls with arguments of the right types", "why_tests_cant": "arbitrary contents and flags", "anchors": [{"file": "aya/src/maps/hash_map/hash_map.rs", "symbols": ["HashMap::get", "HashMap::insert", "HashMap::remove"]}, {"file": "aya/src/maps/array/array.rs", "symbols": ["Array::get", "Array::set"]}, {"file": "aya/src/maps/queue.rs", "symbols": ["Queue::push", "Queue::pop"]}, {"file": "aya/src/maps/stack.rs", "symbols": ["Stack::push", "Stack::pop"]}, {"file": "aya/src/maps/bloom_filter.rs", "symbols": ["BloomFilter::insert", "BloomFilter::contains"]}, {"file": "aya/src/maps/lpm_trie.rs", "symbols": ["LpmTrie::get", "LpmTrie::insert", "Key::new"]}, {"file": "aya/src/maps/xdp/cpu_map.rs", "symbols": ["CpuMap::get", "CpuMap::set"]}, {"file": "aya/src/maps/sock/sock_hash.rs", "symbols": ["SockHash::get"]}]}
{"id": "C76", "title": "A program is loaded as the kind its section names", "statement": "A program whose section has one of the documented names is loaded with the program type, expected attach type and flags the kernel defines for that name, and hooks the kernel function, typedef or iterator that the name and target denote; no other section name is accepted; a program listed as an extension is loaded as one whatever its section.", "quantifier": "every section name and every target", "why_tests_cant": "all names, suffixes, targets and kernel BTFs", "anchors": [{"file": "aya/src/bpf.rs", "symbols": ["EbpfLoader::load"]}, {"file": "aya/src/programs/mod.rs", "symbols": ["load_program"]}, {"file": "aya/src/programs/fentry.rs", "symbols": ["FEntry::load"]}, {"file": "aya/src/programs/lsm.rs", "symbols": ["Lsm::load"]}, {"file": "aya/src/programs/extension.rs", "symbols": ["Extension::load"]}, {"file": "aya-obj/src/obj.rs", "symbols": ["ProgramSection"]}]}
{"id": "C77", "title": "A load request carries the program's own data", "statement": "Loading a program asks the kernel with the program's own name (cut to fifteen bytes), code, licence, version and flags, identically on every retry except for the log; the memory the kernel is told to read exists; a program already loaded, taken from a pin or with a zero byte in its name is refused without asking; the outcome is that of the last request.", "quantifier": "every program and every sequence of answers of the kernel", "why_tests_cant": "arbitrary programs, failures and retries", "anchors": [{"file": "aya/src/programs/mod.rs", "symbols": ["load_program"]}, {"file": "aya/src/sys/bpf.rs", "symbols": ["bpf_load_program"]}, {"file": "aya-obj/src/btf/info.rs", "symbols": ["FuncSecInfo::func_info_bytes", "LineSecInfo::line_info_bytes"]}]}
{"id": "C78", "title": "A failed load changes nothing", "statement": "If loading a program fails, the program is as loaded as it was before and attaching it has the same effect as before.", "quantifier": "every program, target and failure", "why_tests_cant": "every kind, state and failure point", "anchors": [{"file": "aya/src/programs/extension.rs", "symbols": ["Extension::load", "Extension::attach"]}, {"file": "aya/src/programs/mod.rs", "symbols": ["load_program"]}]}
{"id": "C79", "title": "A program is attached as what it was loaded as", "statement": "An attach request is for the loaded program, names the object the caller gave and the attach type the program was loaded with, and makes the kernel attach in the mode the caller chose; detaching names the same three; without a loaded program no request is made.", "quantifier": "every kind of program, attach point, mode and kernel version", "why_tests_cant": "all kinds and modes on both sides of the kernel version test", "anchors": [{"file": "aya/src/programs/cgroup_skb.rs", "symbols": ["CgroupSkb::attach"]}, {"file": "aya/src/programs/cgroup_sock.rs", "symbols": ["CgroupSock::attach"]}, {"file": "aya/src/programs/sk_skb.rs", "symbols": ["SkSkb::attach"]}, {"file": "aya/src/programs/links.rs", "symbols": ["CgroupAttachMode", "ProgAttachLink"]}, {"file": "aya/src/sys/bpf.rs", "symbols": ["bpf_link_create", "bpf_prog_attach"]}]}
{"id": "C80", "title": "The kernel is asked for the perf event the caller described", "statement": "Opening a perf event, trace point or probe passes the kernel the event, the sampling and wake-up policy, the processes and CPU, the probe name, offset and return flag that were asked for, sets no other flag, and opens the descriptor close-on-exec.", "quantifier": "every configuration, scope and policy of the API; every probe name, offset, process and content of the PMU files", "why_tests_cant": "all event configurations at their number ranges", "anchors": [{"file": "aya/src/sys/perf_event.rs", "symbols": ["perf_event_open", "perf_event_open_probe", "perf_event_open_trace_point"]}, {"file": "aya/src/programs/perf_event.rs", "symbols": ["PerfEventConfig", "PerfEventScope", "SamplePolicy", "PerfEvent::attach"]}, {"file": "aya/src/programs/probe.rs", "symbols": ["read_sys_fs_perf_type", "read_sys_fs_perf_ret_probe"]}]}
{"id": "C81", "title": "Bit fields are set and read as C does", "statement": "Setting a bit field of a kernel structure stores the low bits of the value in the bits C gives the field on hosts of either byte order and changes no other bit; reading it yields those bits.", "quantifier": "every storage, offset, width and value, both byte orders", "why_tests_cant": "all fields within their unit", "anchors": [{"file": "aya-obj/src/generated/linux_bindings_x86_64.rs", "symbols": ["__BindgenBitfieldUnit"]}, {"file": "ebpf/aya-ebpf-bindings/src/x86_64/bindings.rs", "symbols": ["__BindgenBitfieldUnit"]}]}
{"id": "C82", "title": "A probe created through tracefs is the probe asked for", "statement": "On kernels without probe PMUs the line written to kprobe_events or uprobe_events is read by the kernel as a probe of the kind, target and offset asked for, under the event name the library will open and later remove.", "quantifier": "every process id, counter value, kind, target and offset", "why_tests_cant": "all targets of the characters the kernel allows in names after replacement", "anchors": [{"file": "aya/src/programs/probe.rs", "symbols": ["create_probe_event"]}, {"file": "aya/src/programs/kprobe.rs", "symbols": ["write_offset"]}, {"file": "aya/src/programs/uprobe.rs", "symbols": ["write_offset"]}]}
{"id": "C83", "title": "A query reports what is attached and changes nothing", "statement": "Querying a hook returns the ids of the programs attached in order and the revision, however many there are; the kernel never writes past the buffer; neither the query nor dropping its result changes what is attached.", "quantifier": "every list of programs, every change between the calls, every error", "why_tests_cant": "hooks with up to and more than 64 programs, changing between the calls", "anchors": [{"file": "aya/src/programs/mod.rs", "symbols": ["query"]}, {"file": "aya/src/sys/bpf.rs", "symbols": ["bpf_prog_query"]}, {"file": "aya/src/programs/tc.rs", "symbols": ["SchedClassifier::query_tcx"]}, {"file": "aya/src/programs/lirc_mode2.rs", "symbols": ["LircMode2::query"]}, {"file": "aya/src/programs/cgroup_device.rs", "symbols": ["CgroupDevice::query"]}]}
{"id": "C84", "title": "Structures shared with the kernel have the kernel's layout", "statement": "Every field of the requests and answers exchanged with the kernel (bpf, perf events, rtnetlink, BTF records) is declared at the offset and with the size the kernel has it; fields of a structure are aligned, inside it and do not overlap.", "quantifier": "every field of the declarations the library uses; every repr(C) type for the general part", "why_tests_cant": "the declarations of the generated bindings", "anchors": [{"file": "aya-obj/src/generated/linux_bindings_x86_64.rs", "symbols": ["bpf_attr", "bpf_prog_info", "bpf_map_info", "bpf_btf_info", "bpf_link_info", "perf_event_attr", "perf_event_mmap_page", "btf_type", "tcmsg", "ifinfomsg"]}]}
{"id": "C85", "title": "Information about programs and maps is the kernel's", "statement": "Each getter of ProgramInfo and MapInfo returns the field the running kernel reports, and None where the kernel is too old to report it; the name, tag, time of loading, ids of the maps and locked memory are those the kernel has for the program.", "quantifier": "every kernel structure of any length; every sequence of calls in a process", "why_tests_cant": "kernels before and after each field was added, failing probes", "anchors": [{"file": "aya/src/programs/info.rs", "symbols": ["ProgramInfo"]}, {"file": "aya/src/maps/info.rs", "symbols": ["MapInfo"]}, {"file": "aya/src/util.rs", "symbols": ["bytes_of_bpf_name"]}, {"file": "aya/src/programs/utils.rs", "symbols": ["boot_time", "get_fdinfo"]}, {"file": "aya/src/sys/bpf.rs", "symbols": ["bpf_obj_get_info_by_fd", "bpf_prog_get_info_by_fd"]}]}
{"id": "C86", "title": "A test run is run with what the caller gave and changes only the caller's buffers", "statement": "A test run gives the kernel the descriptor, packet, context, repetitions and flags of the options and nothing else; its result is what the program returned; the packet and context come back in the buffers given, and no other memory changes.", "quantifier": "every set of options, every behaviour of the program, every content of memory", "why_tests_cant": "all options and kernels that follow net/bpf/test_run.c", "anchors": [{"file": "aya/src/sys/bpf.rs", "symbols": ["invoke_prog_test_run", "bpf_prog_test_run", "bpf_prog_test_run_raw_tp", "bpf_prog_test_run_tracing"]}, {"file": "aya/src/programs/mod.rs", "symbols": ["test_run", "test_run_raw_tp", "test_run_tracing", "TestRunAttrs::xdp_live_frames", "TestRunOptions"]}]}
{"id": "C87", "title": "A handle for something in the kernel refers to something of its kind", "statement": "A handle made from a pin, a number or a ProgramInfo refers to the object named, is made only for objects of its kind, and carries what the kernel reports about the object.", "quantifier": "every kind of handle, every kernel's pins, programs, maps and BTF objects, every length of the kernel's structures", "why_tests_cant": "all paths, numbers and reported structures", "anchors": [{"file": "aya/src/programs/mod.rs", "symbols": ["from_bpf_prog_info", "from_pinned_path", "impl_from_pin", "impl_from_prog_info"]}, {"file": "aya/src/maps/mod.rs", "symbols": ["MapData::from_pin", "MapData::from_id", "MapData::from_fd_inner"]}, {"file": "aya-obj/src/obj.rs", "symbols": ["parse_map_info"]}, {"file": "aya/src/programs/links.rs", "symbols": ["PinnedLink::from_pin", "LinkInfo", "LinkType", "impl_try_from_fdlink"]}]}
{"id": "C88", "title": "An extension replaces the function named, in the program given", "statement": "The BTF of the target program is read whole however large it is, the type id used is that of the function named, and load and attach name that function and that program; a missing function or missing BTF is an error and changes nothing.", "quantifier": "every target program, BTF blob, function name and size of BTF", "why_tests_cant": "all kernels that answer BTF information requests as btf_get_info_by_fd does", "anchors": [{"file": "aya/src/programs/extension.rs", "symbols": ["Extension::load", "Extension::attach", "Extension::attach_to_program", "get_btf_info"]}, {"file": "aya/src/sys/bpf.rs", "symbols": ["btf_obj_get_info_by_fd"]}]}
{"id": "C89", "title": "Maps declared by eBPF programs are created and opened as declared", "statement": "A map declared in an eBPF program, in the legacy or in the BTF form, is read as the map its type and arguments say; the request to create it is one the kernel takes when the declaration is sensible; the checks made while compiling refuse exactly declarations that are not; and the handle of the same kind opens it, with the types of the declaration.", "quantifier": "every map type of aya_ebpf, sizes, entries, flags and BTF encoding", "why_tests_cant": "all kernels that check map creation as the map_alloc_check functions do", "anchors": [{"file": "ebpf/aya-ebpf/src/maps/mod.rs", "symbols": ["MapDef::new", "map_constructors"]}, {"file": "ebpf/aya-ebpf/src/btf_maps/mod.rs", "symbols": ["btf_map_def"]}, {"file": "aya/src/sys/bpf.rs", "symbols": ["bpf_create_map"]}, {"file": "aya-obj/src/obj.rs", "symbols": ["parse_map_def", "parse_btf_map_struct"]}]}
{"id": "C90", "title": "The memory functions linked into eBPF programs behave as C's", "statement": "memset fills exactly the bytes given, memcpy copies between buffers that do not overlap, memmove copies however they overlap, up to the end of the address space; each byte is read and written once and nothing else is touched.", "quantifier": "every pair of addresses, length, byte and memory content", "why_tests_cant": "compiled programs call these for copies of larger values, wrong bytes would be silent", "anchors": [{"file": "ebpf/aya-ebpf/src/lib.rs", "symbols": ["intrinsics::memset", "intrinsics::memcpy", "intrinsics::memmove", "intrinsics::copy_forward", "intrinsics::copy_backward"]}]}
{"id": "C91", "title": "A program sees the arguments and the return value of the code it traces", "statement": "The nth argument of a probe is the value the calling convention of the machine passes as its nth argument, read from where the kernel saves that register and narrowed to the type asked for; arguments that are not passed in registers are refused; return values and word array contexts likewise.", "quantifier": "every architecture supported, byte order, register content, argument number and integer type", "why_tests_cant": "programs act on the wrong data otherwise, without any error", "anchors": [{"file": "ebpf/aya-ebpf/src/args.rs", "symbols": ["arg", "ret", "btf_arg", "raw_tracepoint_arg", "PtRegsLayout"]}, {"file": "ebpf/aya-ebpf/src/programs/fexit.rs", "symbols": ["FExitContext::ret"]}, {"file": "ebpf/aya-ebpf/src/bindings.rs", "symbols": ["pt_regs"]}]}
{"id": "C92", "title": "Programs read and write memory, packets and contexts as asked", "statement": "Reads from user and kernel memory give the whole value or an error, strings come without their terminator and cut to what fits; the ids of a task are the right halves of the words; messages are printed with the arguments given; comparing strings is comparing up to the terminator; loading from and storing to a packet touches exactly the bytes at the offset; each accessor of a context is at the field it is named after.", "quantifier": "every memory, address, buffer, packet, offset, flags and context", "why_tests_cant": "programs act on wrong data, or treat data that is not there as read", "anchors": [{"file": "ebpf/aya-ebpf/src/helpers.rs", "symbols": ["bpf_probe_read", "bpf_probe_read_user_str_bytes", "bpf_probe_read_kernel_str_bytes", "bpf_get_current_comm", "bpf_printk"]}, {"file": "ebpf/aya-ebpf/src/lib.rs", "symbols": ["check_bounds_signed", "EbpfContext"]}, {"file": "ebpf/aya-ebpf/src/programs/sk_buff.rs", "symbols": ["SkBuff::load", "SkBuff::load_bytes", "SkBuff::store"]}, {"file": "ebpf/aya-ebpf/src/programs/sock_ops.rs", "symbols": ["SockOpsContext::arg"]}]}
{"id": "C93", "title": "A map used by programs and by user space is one map", "statement": "Whatever the order of the calls made by programs on any CPU and by user space, hash maps and arrays (also with a value for each CPU), queues, stacks, Bloom filters and tries behave as one map whose changes both sides see; programs find in device maps what user space put there, redirect to it or fail with the action asked for, send perf events to the buffer asked for, and give back every socket they look up.", "quantifier": "every map, key, value, flags, CPU and sequence of calls of both sides", "why_tests_cant": "programs and user space disagree about what is in a map, packets go to the wrong place, sockets leak", "anchors": [{"file": "ebpf/aya-ebpf/src/maps/hash_map.rs", "symbols": ["HashMap", "PerCpuHashMap"]}, {"file": "ebpf/aya-ebpf/src/maps/array.rs", "symbols": ["Array"]}, {"file": "ebpf/aya-ebpf/src/maps/queue.rs", "symbols": ["Queue"]}, {"file": "ebpf/aya-ebpf/src/maps/bloom_filter.rs", "symbols": ["BloomFilter"]}, {"file": "ebpf/aya-ebpf/src/maps/lpm_trie.rs", "symbols": ["LpmTrie", "Key"]}, {"file": "ebpf/aya-ebpf/src/maps/xdp/dev_map.rs", "symbols": ["DevMap::get", "DevMap::redirect"]}, {"file": "ebpf/aya-ebpf/src/maps/xdp/mod.rs", "symbols": ["try_redirect_map"]}, {"file": "ebpf/aya-ebpf/src/maps/sock_map.rs", "symbols": ["SockMap::redirect_sk_lookup"]}, {"file": "ebpf/aya-ebpf/src/maps/perf/perf_event_array.rs", "symbols": ["PerfEventArray::output"]}]}
{"id": "C94", "title": "What programs submit to a ring buffer is what user space reads", "statement": "Whatever the order in which programs reserve, write, submit, discard and output, and user space reads: user space gets the submitted contents, complete, once, in order of reservation, none of the discarded ones, and is told there is nothing more only when it has them all; entries open at the same time share no memory and are aligned for their type; reserving fails only for lack of room or wrong flags, and changes nothing then.", "quantifier": "every size of ring, start position, and sequence of calls of programs and user space", "why_tests_cant": "events are lost, mixed up, or corrupt each other", "anchors": [{"file": "ebpf/aya-ebpf/src/maps/ring_buf.rs", "symbols": ["RingBuf::reserve_bytes", "RingBuf::reserve", "RingBuf::output", "RingBufBytes", "RingBufEntry"]}, {"file": "ebpf/aya-ebpf/src/btf_maps/ring_buf.rs", "symbols": ["RingBuf"]}, {"file": "aya/src/maps/ring_buf.rs", "symbols": ["RingBuf::next"]}]}
{"id": "C95", "title": "A loaded program is the object's program with every reference resolved", "statement": "What is handed to the kernel for a program is its function followed by every function it needs, directly or not, each once; in each of them every reference to a map or variable loads the address of that map or of the right place in it, every reference to the kernel is the kernel's function or address, or the agreed replacement if it is weak and missing, every call and function address leads to the copy of that function; and every other instruction is unchanged, except that helpers the kernel lacks are replaced. If a map, variable or kernel symbol that must exist is missing, loading fails.", "quantifier": "every object, set of maps and kernel symbols, and program", "why_tests_cant": "a program runs code or reads data that its author did not mean", "anchors": [{"file": "aya/src/bpf.rs", "symbols": ["EbpfLoader::load"]}, {"file": "aya-obj/src/relocation.rs", "symbols": ["Object::relocate_maps", "Object::relocate_externs", "Object::relocate_calls"]}, {"file": "aya-obj/src/obj.rs", "symbols": ["Object::sanitize_functions"]}]}
{"id": "C96", "title": "Loading an object yields all of its programs and maps, adapted to the kernel, or fails for a reason", "statement": "EbpfLoader::load returns each program of the object once, with the kind of its section or as the extension the caller asked for, its complete code, its name if the kernel takes names and the object's BTF if the kernel took it; and each map once, unless it holds variables and the kernel has no global data, with maps of maps created last. If the kernel refuses the BTF the load fails exactly if a program or a relocation needs it. The target BTF is asked for only for objects that use it and, once read, never again by the same loader; if it cannot be read the load fails with that error if it is needed, and otherwise typed kernel symbols count as absent. Errors in the object are found before anything is created.", "quantifier": "every object, configuration, kernel and sequence of loads", "why_tests_cant": "programs or maps are missing, are loaded as something else, or fail on a kernel that could run them", "anchors": [{"file": "aya/src/bpf.rs", "symbols": ["EbpfLoader::load"]}, {"file": "aya-obj/src/btf/btf.rs", "symbols": ["Object::fixup_and_sanitize_btf"]}, {"file": "aya-obj/src/extern_types.rs", "symbols": ["Object::has_typed_ksyms", "Object::has_strong_typed_ksyms", "Object::resolve_externs"]}]}
{"id": "C97", "title": "Parsing an ELF file yields what the file contains", "statement": "Object::parse returns the license and version of the sections of these names; one program for each named function symbol of a program section, with the function at its address; the functions of text sections, which together are the whole section; each map that a section defines, once; the relocations of code, the offsets of variables and the sizes of sections; the BTF and the kernel symbols it lists, not yet resolved. A file is accepted exactly if each section is as it should be, a file that is refused changes nothing, and the order of the sections does not matter. What is loaded from the file are these programs with this code.", "quantifier": "every relocatable ELF file whose program symbols have different names and, in a section, different addresses", "why_tests_cant": "programs, functions or maps of the file are lost, doubled, or taken from the wrong place", "anchors": [{"file": "aya-obj/src/obj.rs", "symbols": ["Object::parse", "Object::parse_section", "Object::parse_programs", "Object::parse_text_section", "Object::parse_btf_maps"]}, {"file": "aya-obj/src/btf/extern_types.rs", "symbols": ["Object::collect_ksyms_from_btf"]}]}
{"id": "C98", "title": "Feature probes tell what the kernel has", "statement": "A feature probe answers yes or no exactly according to what the running kernel supports, reports an error only when a call failed for reasons of its own such as missing privileges, closes every descriptor it got, and the cached features the library bases its decisions on say yes only for features the kernel has.", "quantifier": "For every kernel described by its map types, program types, helpers, fields, BTF kinds and failures, every probe of aya::sys and every history of calls before it; descriptors and refusals for every kernel whatsoever", "why_tests_cant": "The loader rewrites BTF, names, program attachment and global data according to these answers; a wrong one makes programs fail to load or load without what they need, and users choose program types by them.", "anchors": [{"file": "aya/src/sys/feature_probe.rs", "symbols": ["is_bpf_name_supported", "is_perf_link_supported", "is_bpf_global_data_supported", "is_cpumap_prog_id_supported", "is_devmap_prog_id_supported", "is_btf_supported", "is_btf_feature_supported", "is_helper_supported", "is_program_supported", "is_map_supported", "is_prog_info_map_ids_supported", "is_prog_info_license_supported"]}, {"file": "aya/src/sys/bpf.rs", "symbols": ["feature_probe_result", "with_prog_insns", "with_trivial_prog", "probe_bpf_name", "probe_perf_link", "probe_bpf_global_data", "probe_prog_id", "probe_btf", "probe_btf_func", "probe_btf_datasec", "probe_btf_decl_tag", "probe_btf_type_tag", "probe_btf_enum64", "with_raised_rlimit_retry"]}, {"file": "aya/src/kernel_features.rs", "symbols": ["Features", "BtfFeatures", "probe_read_kernel_feature", "probe_bpf_cookie_feature"]}]}
{"id": "C99", "title": "Programs on sockets go into the slot of their abstraction and stay there", "statement": "Attaching a socket filter or reuseport program through a socket fills exactly the slot the abstraction names (the socket's own filter or the selector of its reuseport group) with exactly that program; detaching empties exactly that slot; failures change nothing and name the socket option; neither unloading nor dropping the program nor any use of the other slot affects an attachment, and a program exists as long as something needs it and no longer.", "quantifier": "For every history of loading, attaching, detaching, pinning, unloading and dropping socket programs under any of their views, mixed with opening, duplicating, closing, binding and locking sockets, on both byte orders and option levels", "why_tests_cant": "The library keeps no record of these attachments, so its documentation is all a user has to decide which packets are still filtered or steered after programs are dropped or replaced.", "anchors": [{"file": "aya/src/programs/socket_filter.rs", "symbols": ["SocketFilter::attach", "SocketFilter::detach", "ReusePortSocketFilter::attach", "ReusePortSocketFilter::detach", "setsockopt_socket_filter", "from_pin"]}, {"file": "aya/src/programs/sk_reuseport.rs", "symbols": ["SkReuseport::load", "SkReuseport::attach", "SkReuseport::detach", "setsockopt_reuseport"]}, {"file": "aya/src/programs/mod.rs", "symbols": ["impl_try_from_socket_filter_program", "unload_program", "pin_program", "impl_program_unload"]}]}
{"id": "C100", "title": "Generated helper bindings call the helper they are named after", "statement": "Each function of the generated helper bindings, called with values for its parameters, calls the kernel helper of its own name with exactly these values in order; there is one for each helper of the kernel's list except trace_printk. The generator produces, for every declaration in a header except that of trace_printk, one function with its name, parameters and result, and leaves the other items of the file alone. The constants that number helpers in the bindings for programs and for user space agree with the kernel's.", "quantifier": "For every function in the checked-in bindings, and for every file of bindings that holds helper declarations among other items", "why_tests_cant": "A wrong number would make a program call another helper with the arguments of the intended one; neither the compiler nor the verifier would necessarily notice.", "anchors": [{"file": "xtask/src/codegen/helpers.rs", "symbols": ["extract_helpers", "helper_from_item", "expand_helpers", "expand_helper"]}, {"file": "xtask/src/codegen/aya_ebpf_bindings.rs", "symbols": ["codegen"]}, {"file": "ebpf/aya-ebpf-bindings/src/x86_64/helpers.rs", "symbols": ["bpf_map_lookup_elem", "bpf_cgrp_storage_delete"]}, {"file": "ebpf/aya-ebpf-bindings/src/x86_64/bindings.rs", "symbols": ["bpf_func_id"]}, {"file": "aya-obj/src/generated/linux_bindings_x86_64.rs", "symbols": ["bpf_func_id"]}]}
{"id": "C101", "title": "Attribute macros emit what their arguments ask for", "statement": "An attribute macro is accepted exactly when its tokens are arguments it documents, none given twice, in any order, with values it can use; the emitted program then lies in the section these arguments name, the loader takes that section for the intended kind, the program wraps the struct the kernel passes in the context of that kind, and returns the user's result wherever the kernel acts on it and 0 elsewhere. Map attributes export the symbol given or the static's name. Anything else is a compile error, and no accepted argument is without effect.", "quantifier": "For every attribute, every list of tokens, every function or static, and every user function", "why_tests_cant": "Sections are only seen by the loader on the target machine, and an argument dropped without a word leaves a program that loads and never fires where it was meant to.", "anchors": [{"file": "aya-ebpf-macros/src/args.rs", "symbols": ["Args::parse", "pop_string", "pop_bool", "into_error", "pop_name"]}, {"file": "aya-ebpf-macros/src/uprobe.rs", "symbols": ["UProbe::parse", "UProbe::expand"]}, {"file": "aya-ebpf-macros/src/kprobe.rs", "symbols": ["KProbe::parse", "KProbe::expand"]}, {"file": "aya-ebpf-macros/src/xdp.rs", "symbols": ["Xdp::parse", "Xdp::expand"]}, {"file": "aya-ebpf-macros/src/cgroup_sock_addr.rs", "symbols": ["CgroupSockAddr::parse", "CgroupSockAddr::expand"]}, {"file": "aya-ebpf-macros/src/cgroup_skb.rs", "symbols": ["CgroupSkb::parse", "CgroupSkb::expand"]}, {"file": "aya-ebpf-macros/src/cgroup_sock.rs", "symbols": ["CgroupSock::parse", "CgroupSock::expand"]}, {"file": "aya-ebpf-macros/src/fentry.rs", "symbols": ["FEntry::parse", "FEntry::expand"]}, {"file": "aya-ebpf-macros/src/fexit.rs", "symbols": ["FExit::parse", "FExit::expand"]}, {"file": "aya-ebpf-macros/src/lsm.rs", "symbols": ["Lsm::parse", "Lsm::expand"]}, {"file": "aya-ebpf-macros/src/sk_skb.rs", "symbols": ["SkSkb::parse", "SkSkb::expand"]}, {"file": "aya-ebpf-macros/src/sk_reuseport.rs", "symbols": ["SkReuseport::parse", "SkReuseport::expand"]}, {"file": "aya-ebpf-macros/src/map.rs", "symbols": ["Map::parse", "Map::expand"]}, {"file": "aya-ebpf-macros/src/lib.rs", "symbols": ["kprobe", "uprobe", "xdp", "map", "btf_map"]}]}
{"id": "C102", "title": "Maps of maps give back the maps put in", "statement": "Getting a map out of an ArrayOfMaps or HashOfMaps returns a handle, of the type asked for, for the very map that was put in under that key, also after the handle it was put in with was dropped and whatever else happens to the maps; only one descriptor is opened, closed again on drop and on every error. Putting in or removing a map changes that key only, and only maps like those the outer map was made for are taken. Programs find the same maps and values. When the outer map changes while it is read, the result is still a map that was in it or an error.", "quantifier": "For every state of maps, descriptors and references that events can lead to, every key, flags, handle type and interleaved events", "why_tests_cant": "The kernel takes a descriptor and gives back a number, so a get is a lookup and an open with a gap between them; a wrong or leaked handle reads and writes somebody else's map.", "anchors": [{"file": "aya/src/maps/of_maps/mod.rs", "symbols": ["map_from_id"]}, {"file": "aya/src/maps/of_maps/array.rs", "symbols": ["ArrayOfMaps::get", "ArrayOfMaps::set"]}, {"file": "aya/src/maps/of_maps/hash_map.rs", "symbols": ["HashOfMaps::get", "HashOfMaps::insert", "HashOfMaps::remove"]}, {"file": "aya/src/maps/mod.rs", "symbols": ["MapData::from_id", "FromMapData", "InnerMap"]}, {"file": "ebpf/aya-ebpf/src/btf_maps/of_maps/array.rs", "symbols": ["get_value", "get_value_ptr_mut"]}, {"file": "ebpf/aya-ebpf/src/btf_maps/of_maps/hash_map.rs", "symbols": ["get_value", "get_value_ptr_mut"]}]}
{"id": "C103", "title": "build_ebpf builds each package once, as asked, and puts its binaries into OUT_DIR", "statement": "Unless AYA_BUILD_SKIP says so, one cargo build is run per package, in order, for the BPF target with the endianness of the target being built, with the features asked for, debug info, BTF and the architecture as a cfg, in a directory of its own, and building core exactly when unstable options are available. When all succeed every binary is in OUT_DIR under its name, with the contents cargo built, and nothing else outside the directory of the builds changed. When one fails, an error is returned, nothing of it is copied and no later one is built. Everything cargo and the compiler say is passed on as warnings, one line each, and cargo is told to run again when a package changes.", "quantifier": "For every list of packages, toolchain, environment, behaviour of cargo that keeps to its target directory, and previous files", "why_tests_cant": "include_bytes_aligned! reads the binaries from OUT_DIR: a stale or foreign binary is embedded and loaded without notice, and lines of compiler output not prefixed would be instructions for cargo.", "anchors": [{"file": "aya-build/src/lib.rs", "symbols": ["build_ebpf", "Package", "Toolchain", "target_arch_fixup"]}]}
{"id": "C104", "title": "The architecture the programs are for has its bindings", "statement": "emit_bpf_target_arch_cfg sets bpf_target_arch to what the user asked for or to the architecture of the host, unless the compiler was given it, and always declares the possible values; each of these, and no other, selects bindings, the struct for registers and the type of C characters of that architecture.", "quantifier": "For every environment and every architecture with bindings", "why_tests_cant": "With no match the crates do not compile; with a wrong one arguments are read from wrong registers.", "anchors": [{"file": "aya-build/src/lib.rs", "symbols": ["emit_bpf_target_arch_cfg", "target_arch_fixup"]}, {"file": "ebpf/aya-ebpf-cty/src/lib.rs", "symbols": ["c_char"]}, {"file": "ebpf/aya-ebpf-bindings/src/lib.rs", "symbols": ["bindings", "helpers"]}, {"file": "ebpf/aya-ebpf/src/bindings.rs", "symbols": ["pt_regs"]}]}
{"id": "C105", "title": "aya-tool generate asks for the bindings of the types named", "statement": "Bindings are made by bindgen from the header given or from what bpftool dumps of the BTF, for the types named, with the settings aya-ebpf needs; arguments of the user are passed on in order, those for clang with the others for clang, and a prefix for C types the user gives is used instead of the default one. What bindgen writes is written, and nothing when a tool fails, which is an error that says which.", "quantifier": "For every input, list of types, arguments, and behaviour of the tools", "why_tests_cant": "Bindings with another prefix or enum style do not compile in programs, and arguments in the wrong place silently change what is parsed.", "anchors": [{"file": "aya-tool/src/generate.rs", "symbols": ["generate", "c_header_from_btf", "extract_ctypes_prefix", "combine_flags"]}, {"file": "aya-tool/src/bindgen.rs", "symbols": ["bpf_builder"]}, {"file": "aya-tool/src/bin/aya-tool.rs", "symbols": ["main"]}]}
{"id": "C106", "title": "programs at trace points and iterators run while their link or file is held", "statement": "Attaching to a trace point reads its number where tracefs is mounted, opens an event for it and attaches the program by a link where the kernel has such links, else by ioctl; afterwards the program runs once for each link held, at that trace point, and one descriptor is open for each. Detaching, failing and converting leave nothing behind. The link of an iterator becomes a file that gives what the program writes, and the link is released.", "quantifier": "For every kernel state, file contents, features, sequence of calls and choice of calls that fail", "why_tests_cant": "A program left attached keeps running on every hit of the trace point; a wrong number attaches it elsewhere.", "anchors": [{"file": "aya/src/programs/trace_point.rs", "symbols": ["TracePoint::attach", "read_sys_fs_trace_point_id"]}, {"file": "aya/src/programs/perf_attach.rs", "symbols": ["perf_attach", "attach_bpf_link", "attach_perf_event", "PerfLink::detach", "PerfLinkInner::detach"]}, {"file": "aya/src/programs/iter.rs", "symbols": ["Iter::attach", "IterLink::into_file"]}, {"file": "aya/src/programs/utils.rs", "symbols": ["find_tracefs_path"]}]}
{"id": "C107", "title": "what programs log is what the logger is given", "statement": "Whatever programs log, at the same time and interleaved in any way with user space reading, the logger is given a beginning of the calls that got a reservation, each once, in order of reservation, with the header and the message of the call, and all of them once the calls are done and nothing is left to read; flushing never panics. Calls of a level not let through, or too long, change nothing; others are logged whenever everything before was read. Attaching by the number of a program takes the first of its maps named AYA_LOGS.", "quantifier": "For every sequence of calls, stores, reads and releases, every level, every position the ring starts at, every list of programs and maps", "why_tests_cant": "The parts were shown apart (records, ring buffer); this shows that no message is lost, repeated, mixed with another or reordered on its way.", "anchors": [{"file": "aya-log-ebpf-macros/src/expand.rs", "symbols": ["log"]}, {"file": "ebpf/aya-log-ebpf/src/lib.rs", "symbols": ["AYA_LOGS", "AYA_LOG_LEVEL", "level_enabled"]}, {"file": "aya-log/src/lib.rs", "symbols": ["EbpfLogger::flush", "EbpfLogger::init_from_id_with_logger", "EbpfLogger::new", "log_buf"]}]}
{"id": "C108", "title": "kernel modules of the test machine are found by their aliases", "statement": "depmod writes a line for every alias of every module, in the order of the directory, whatever the compression; modprobe gives the kernel exactly the decompressed contents of the first module with the alias asked for, tells an already loaded module from other errors, and finds nothing that is no alias; a quiet modprobe always succeeds.", "quantifier": "For every directory, every module and every answer of the kernel; modprobe for aliases and names that fit into a line, and modules below the directory kernel", "why_tests_cant": "The integration tests need modules such as sch_ingress; a wrong or missing module makes tests fail for reasons outside aya.", "anchors": [{"file": "test-distro/src/depmod.rs", "symbols": ["main", "read_aliases_from_module"]}, {"file": "test-distro/src/modprobe.rs", "symbols": ["main", "try_main", "resolve_alias", "parse_alias_line"]}, {"file": "test-distro/src/lib.rs", "symbols": ["resolve_modules_dir", "read_to_end"]}]}
{"id": "C109", "title": "the test machine starts with the files put into its archive", "statement": "Entries appended to the archive are read back by the kernel in order, with distinct numbers, permissions, times and contents; the file system of the test machine has exactly the directories, kernel files, programs, modules and test programs asked for, at their paths and with their permissions; building the archive fails exactly when a file cannot be read or changes, is 4 GiB or longer, or there are too many.", "quantifier": "For every set of files, names and contents; names given once and paths short", "why_tests_cant": "A misaligned or wrong header makes the kernel ignore the rest of the archive, and tests would silently not run; init runs everything in /bin.", "anchors": [{"file": "xtask/src/run.rs", "symbols": ["CpioArchiveBuilder::append", "append_dir", "append_file", "append_trailer", "NEWC_MAGIC", "NEWC_HEADER_LEN", "run"]}]}
{"id": "C110", "title": "tests succeed when every test program does", "statement": "Inside the test machine the file systems are mounted in order, and every program in /bin is run once with the arguments given outside; the verdict is success exactly when all exit with zero, and those that did not are named. Outside, a run succeeds exactly when every machine gave success as its only verdict and ended well, machines that failed are all named, and the emulator is told to stop at a panic or a second lockup. The programs are those put into the archive. Without a machine each program is run below the runner.", "quantifier": "For every machine, programs, arguments and output; end to end for output of whole lines not looking like a verdict, and arguments without blanks", "why_tests_cant": "The verdict of the integration tests passes through two programs, the kernel's parameters and a serial line; a lost verdict or argument would hide failing tests.", "anchors": [{"file": "test-distro/src/init.rs", "symbols": ["run", "main", "Mount"]}, {"file": "xtask/src/run.rs", "symbols": ["run", "Environment::Local", "Environment::VM", "terminate_if_kernel_hang"]}]}
{"id": "C111", "title": "the kernel tested is the newest complete build of its line", "statement": "The links of a directory listing are found in order and made absolute; builds of the line asked for are tried from the newest, at most ten; the build chosen has exactly one generic image and one generic modules package for the architecture, and every newer build lacks one or the architecture; no choice means that all builds tried lack something.", "quantifier": "For every site, version and architecture; pages of tags whose attributes are quoted", "why_tests_cant": "Testing against an older kernel than thought, or another line, would hide incompatibilities with new kernels.", "anchors": [{"file": "xtask/src/ubuntu_mainline.rs", "symbols": ["html_tag_href", "directory_listing_urls", "ubuntu_mainline_kernel_urls"]}, {"file": "xtask/src/http.rs", "symbols": ["url_file_name"]}]}
{"id": "C112", "title": "kernel packages in the cache are whole and current", "statement": "A download replaces a file only by a whole body and touches no other package; with a server whose tags stand for bodies, a file is current after a successful download, or the one from before if the server did not answer, and its tag stands for it; a run leaves exactly the packages of the versions asked for and their tags, in order, and a failing run loses no package.", "quantifier": "For every server, cache and sequence of versions; operations on files work", "why_tests_cant": "A truncated or stale kernel package would make the tests run against something else than was asked for.", "anchors": [{"file": "xtask/src/http.rs", "symbols": ["HttpClient::download_to_path", "HttpClient::download_to_dir"]}, {"file": "xtask/src/ubuntu_mainline.rs", "symbols": ["download_ubuntu_mainline_kernel_archives"]}]}
{"id": "C113", "title": "the parts of a kernel are found in its packages", "statement": "For packages with one member with data and paths from the current directory, unpacking succeeds exactly if the image package has one image and the modules package one configuration, one directory with modules and one symbol map, which are then given with their paths; exactly the image, and what lies in the directory with modules, the configuration and the symbol map are unpacked, and nothing to a path with two dots; an image is taken as it is unless it is an EFI program for 64-bit ARM with a compressed kernel, in which case the kernel compressed with zstd is written beside it if it is one, and everything else is an error.", "quantifier": "For every package and every image", "why_tests_cant": "A wrong or compressed image does not start, and modules of another kernel do not load.", "anchors": [{"file": "xtask/src/ubuntu_mainline.rs", "symbols": ["with_deb", "first_component_after", "one", "is_aarch64_pe_image", "parse_efi_zboot_header", "maybe_extract_qemu_arm64_image", "unpack_ubuntu_mainline_image_package", "unpack_ubuntu_mainline_modules_package", "unpack_ubuntu_mainline_kernel_package"]}]}
{"id": "C114", "title": "loaded programs behave as their object file says", "statement": "For a well-formed object whose code looks like that of a compiler, a program that was made by relocation does, step by step and from every state, what the object file says its function does: instructions are executed in order, calls enter the function that is referred to and return behind the call, loads give the map, the place in the data of a map, the symbol of the kernel, the function or the number that is meant, kernel functions and helpers are called by their numbers, and calls of missing weak functions fault; this also holds for every function of the program when entered by itself, and the functions lie apart. What the file says is determined. It holds for the programs of every loaded object.", "quantifier": "For every object, every state, every number of steps and every meaning of the arithmetic instructions and helpers", "why_tests_cant": "That instructions are patched correctly matters only because the program then does what it was written to do.", "anchors": [{"file": "aya-obj/src/relocation.rs", "symbols": ["Object::relocate_maps", "Object::relocate_calls", "relocate_maps", "FunctionLinker::link", "FunctionLinker::relocate", "Object::relocate_externs", "patch_extern_relocations", "poison_kfunc_call"]}, {"file": "aya/src/bpf.rs", "symbols": ["EbpfLoader::load"]}]}
{"id": "C115", "title": "Bit fields lie where C puts them", "statement": "For either byte order and with or without debug assertions, reading a bit field of a generated binding gives the value the C compiler's layout gives that field, writing replaces exactly that field with the value cut to its width and no other bit, a field that does not fit its unit panics, and the raw pointer variants do the same to memory without touching another byte. The fields of bpf_insn, bpf_prog_info, perf_event_attr and the caps of perf_event_mmap_page have the kernel's order and widths, their getters and setters are independent of each other, and new_bitfield_1 yields exactly the given values.", "quantifier": "All contents of a unit, all offsets and widths inside it (and all outside, for the panic), all values, both byte orders, both build profiles; for the tables, every field of the four units.", "why_tests_cant": "Registers of every instruction aya patches and every flag of perf_event_open go through these accessors; one wrong bit corrupts a program or opens another kind of event.", "anchors": [{"file": "aya-obj/src/generated/linux_bindings_x86_64.rs", "symbols": ["extract_bit", "get_bit", "raw_get_bit", "change_bit", "set_bit", "raw_set_bit", "get", "raw_get", "set", "raw_set", "new_bitfield_1", "dst_reg", "set_src_reg", "gpl_compatible", "precise_ip", "cap_____res"]}]}
{"id": "C116", "title": "The check of the public interfaces finds every change", "statement": "Without --bless the check passes exactly if the nightly compiler is there (or is installed with consent) and the committed file of every published package holds the text of its public interface, apart from carriage returns before newlines; it changes no file, reports every failing package once and in order, and its report shows the lines of the interface with a plus and those of the committed file with a minus. With --bless the file of every published package becomes its interface, no other file is touched, a package that cannot be built or written is an error, and the check passes afterwards. Procedural macros are documented for the host, all other packages for the target asked for. The files in xtask/public-api are those of the published members of the workspace.", "quantifier": "All workspaces with names allowed by cargo, all interfaces, all contents of files, all targets, all failures of building, creating, writing and reading; the workspace of the repository for the table.", "why_tests_cant": "The committed interfaces are how breaking changes of a published crate are noticed in review; a check that misses a package, a line or a final newline lets one through.", "anchors": [{"file": "xtask/src/public_api.rs", "symbols": ["public_api", "check_package_api", "Options"]}, {"file": "xtask/src/lib.rs", "symbols": ["Errors"]}, {"file": "Cargo.toml", "symbols": ["members"]}]}
{"id": "C117", "title": "The commands of xtask reach every architecture", "statement": "Generating bindings covers every supported architecture once; every file written, also before a failure, holds the bindings made with the target and the headers of the architecture it is named after, success means that every file is written, and aya-obj and aya-ebpf-bindings use, for each architecture they are built for, the file of that architecture. Linting passes exactly if every command exits with zero, stops at the first that does not, and lints every package for BPF for every architecture and both byte orders with warnings denied. The site links every documented package where rustdoc puts it. No command runs before libbpf is at the recorded commit or an update of it has worked.", "quantifier": "All outcomes of bindgen, of creating directories and of writing, all options for header directories, all arguments and exit codes of the lint commands, all outputs of git submodule status.", "why_tests_cant": "Bindings of the wrong architecture give wrong layouts that only show on that architecture, which the tests in CI do not all run on; a lint that misses an architecture lets errors in its code through.", "anchors": [{"file": "xtask/src/codegen/mod.rs", "symbols": ["Architecture", "supported", "target", "sysroot", "codegen", "SysrootOptions"]}, {"file": "xtask/src/codegen/aya.rs", "symbols": ["codegen_internal_btf_bindings", "codegen_bindings"]}, {"file": "xtask/src/codegen/aya_ebpf_bindings.rs", "symbols": ["codegen"]}, {"file": "aya-obj/src/generated/mod.rs", "symbols": ["linux_bindings_armv7"]}, {"file": "xtask/src/clippy.rs", "symbols": ["run"]}, {"file": "xtask/src/docs.rs", "symbols": ["docs"]}, {"file": "xtask/src/main.rs", "symbols": ["main"]}, {"file": "xtask/src/lib.rs", "symbols": ["exec"]}]}
{"id": "C118", "title": "The C types of programs are those of C", "statement": "Each alias of aya-ebpf-cty is defined exactly once on a target and stands for the type C has there under that name: the same width and the same sign. A program compiled for an architecture that is not known has no char rather than one of the wrong sign.", "quantifier": "All architectures, operating systems and widths of pointers for the absence of ambiguity and for pairs of signed and unsigned types; the architectures Linux runs on, and those programs are compiled for, for widths and signs.", "why_tests_cant": "Bindings generated from C headers are written with these aliases; a wrong width moves every later field of a struct, and a wrong sign changes the meaning of bytes from the kernel.", "anchors": [{"file": "ebpf/aya-ebpf-cty/src/lib.rs", "symbols": ["ad", "od", "c_char", "c_long", "c_ulong"]}, {"file": "ebpf/aya-ebpf-cty/build.rs", "symbols": ["main"]}]}
