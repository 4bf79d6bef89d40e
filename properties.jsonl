{"id": "C01", "title": "Memory space map always tiles the address space", "statement": "After GCD initialisation with B address bits and any history of memory-space services (add, remove, allocate, free, free-preserving-ownership, set attributes, set capabilities), succeeding or failing, the descriptors returned by get_memory_descriptors are sorted by base, each has non-zero length, each starts where the previous one ends, the first starts at 0 and the last ends at 2^B.", "quantifier": "every address width, every finite sequence of memory-space calls with arbitrary arguments", "why_tests_cant": "The tiling must survive every interleaving of splits and merges over an unbounded number of calls; tests only try a few sequences.", "anchors": ["patina_dxe_core/src/gcd/spin_locked_gcd.rs: GCD::{add_memory_space,remove_memory_space,allocate_memory_space,free_memory_space,set_memory_space_attributes,set_memory_space_capabilities,split_state_transition_at_idx}", "patina_dxe_core/src/gcd/memory_block.rs: MemoryBlock::{split,merge,split_state_transition}"]}
{"id": "C02", "title": "A memory-space call changes exactly the requested range", "statement": "When add/remove/allocate/free/set-attributes/set-capabilities succeeds for [base, base+len), the state (type, capabilities, attributes, owner, allocated or not) reported for every address inside the range is exactly what the call specifies as a function of the address's previous state, and the state reported for every address outside is unchanged.", "quantifier": "every reachable map, every call, every address", "why_tests_cant": "Needs an address-by-address comparison before and after for all maps; off-by-one splits at unusual boundaries are not enumerable by tests.", "anchors": ["patina_dxe_core/src/gcd/memory_block.rs: MemoryBlock::{split_state_transition,state_transition,merge}", "patina_dxe_core/src/gcd/spin_locked_gcd.rs: GCD::split_state_transition_at_idx"]}
{"id": "C03", "title": "A failing memory-space call leaves the map unchanged", "statement": "If a memory-space call returns an error then the descriptor map returned afterwards is the one before the call.", "quantifier": "every reachable map, every call that returns Err", "why_tests_cant": "All error exits (including out-of-nodes half way through a split) have to be covered for every state.", "anchors": ["patina_dxe_core/src/gcd/spin_locked_gcd.rs: GCD::split_state_transition_at_idx, free_memory_space_worker, set_memory_space_attributes", "patina_dxe_core/src/gcd/memory_block.rs: split_state_transition"]}
{"id": "C04", "title": "Allocation returns only free memory that meets the request", "statement": "When allocate_memory_space succeeds with (strategy, type, alignment shift, len) the returned range was entirely unallocated memory of that type, is aligned, satisfies the strategy's address bound, and afterwards is owned by the given image/device handles; hence two live allocations never overlap and an allocation never covers memory that was never added.", "quantifier": "every reachable map, every allocation request, every history of allocate/free", "why_tests_cant": "Freedom from overlap is a property of all histories.", "anchors": ["patina_dxe_core/src/gcd/spin_locked_gcd.rs: GCD::{allocate_memory_space_internal,allocate_bottom_up,allocate_top_down,allocate_address}"]}
{"id": "C05", "title": "Allocation search is complete and picks the documented end", "statement": "Bottom-up allocation returns the lowest, and top-down the highest, feasible block's candidate address; if the search reports NotFound then no free block of the requested type can hold an aligned range of that length within the bound.", "quantifier": "every reachable map and request", "why_tests_cant": "Completeness is a negative statement over all addresses.", "anchors": ["patina_dxe_core/src/gcd/spin_locked_gcd.rs: GCD::{allocate_bottom_up,allocate_top_down}"]}
{"id": "C06", "title": "Free inverts allocate, and nothing else can be freed", "statement": "Freeing exactly a live allocation succeeds, makes that range unallocated and available for a new allocation of the same size, and freeing any range that is not wholly inside one allocated block (never allocated, already freed, straddling) fails.", "quantifier": "every reachable map, every (base,len)", "why_tests_cant": "Double free and partial free interact with merges in unboundedly many ways.", "anchors": ["patina_dxe_core/src/gcd/spin_locked_gcd.rs: GCD::{free_memory_space,free_memory_space_worker}"]}
{"id": "C07", "title": "I/O space map: tiling, exact effect, safe allocation", "statement": "The same tiling, exact-effect, failure-atomicity and allocation-safety guarantees hold for the I/O space services.", "quantifier": "every history of I/O-space calls", "why_tests_cant": "Same as C01-C04.", "anchors": ["patina_dxe_core/src/gcd/spin_locked_gcd.rs: IoGCD", "patina_dxe_core/src/gcd/io_block.rs: IoBlock"]}
{"id": "C08", "title": "The red-black tree is a sorted map", "statement": "For every history of add, delete, get, get_closest, first, last, next, prev on the red-black tree (or the plain binary search tree) in a zeroed buffer, results agree with a finite sorted map: get finds a key iff it was added and not deleted since, get_closest returns the greatest key <= the probe, and next/prev enumerate keys in strictly increasing/decreasing order without omission.", "quantifier": "every finite operation sequence over every totally ordered key type and capacity", "why_tests_cant": "Rotation and transplant cases multiply with tree shape; only induction covers all shapes.", "anchors": ["core/patina_internal_collections/src/rbt.rs: Rbt::{add,delete,get,get_closest_idx,next_idx,prev_idx}", "core/patina_internal_collections/src/node.rs: Node, Storage"]}
{"id": "C09", "title": "Red-black balance keeps operations logarithmic", "statement": "After every history of adds and deletes every root-to-leaf path of the red-black tree has the same number of black nodes and no red node has a red child, so the height is at most 2*log2(n+1).", "quantifier": "every finite operation sequence", "why_tests_cant": "Balance is an invariant over all histories.", "anchors": ["core/patina_internal_collections/src/rbt.rs: fixup_add, fixup_delete, rotate_left, rotate_right"]}
{"id": "C10", "title": "Growing the tree's storage preserves its contents", "statement": "Expanding the backing storage of a tree to a larger buffer preserves exactly the stored elements and their order, whatever adds and deletes preceded it.", "quantifier": "every history before the expansion, every larger capacity", "why_tests_cant": "Depends on free-list fragmentation produced by arbitrary histories.", "anchors": ["core/patina_internal_collections/src/node.rs: Storage::resize", "core/patina_internal_collections/src/rbt.rs: Rbt::resize"]}
{"id": "C11", "title": "SortedSlice is a sorted set with atomic failure", "statement": "For every history of add, add_contiguous_slice, remove and remove_at_idx the slice stays strictly sorted, holds exactly the elements added and not removed, search agrees with membership, and a failing call changes nothing.", "quantifier": "every operation sequence, every ordered key type, every capacity", "why_tests_cant": "Binary-search and splice boundaries for all lengths.", "anchors": ["core/patina_internal_collections/src/sorted_slice.rs: SortedSlice"]}
{"id": "C12", "title": "Every signal of a notify-signal event yields exactly one pending notification", "statement": "Signalling an unsignalled notify-signal event makes exactly one notification for it pending; signalling it again before that notification is delivered adds none; a closed event is never notified.", "quantifier": "every history of create/close/signal/clear/consume calls over any number of events", "why_tests_cant": "At-most-once and at-least-once delivery are trace properties.", "anchors": ["patina_dxe_core/src/event_db.rs: EventDb::{signal_event,queue_event_notify,consume_next_event_notify,close_event}"]}
{"id": "C13", "title": "Notifications are delivered by descending TPL then signal order", "statement": "Among pending notifications, the next one delivered always has the highest notify TPL, ties broken by the order in which they were queued; none at or below the requested TPL is delivered.", "quantifier": "every pending set and every signal history", "why_tests_cant": "Ordering over all interleavings of signals and deliveries.", "anchors": ["patina_dxe_core/src/event_db.rs: TaggedEventNotify ordering, consume_next_event_notify"]}
{"id": "C14", "title": "Signalling one member of an event group signals every member", "statement": "Signalling an event that belongs to a group, or the group itself, leaves every currently existing unsignalled member of that group signalled with its notification pending, and no event outside the group changes.", "quantifier": "every event database and group", "why_tests_cant": "Quantifies over all member sets.", "anchors": ["patina_dxe_core/src/event_db.rs: EventDb::{signal_event,signal_group}"]}
{"id": "C15", "title": "Timers fire when due, and only then", "statement": "At a tick at time t a timer event is signalled iff it is armed with trigger time <= t; a one-shot timer then disarms, a periodic one re-arms at t+period; cancelled timers never fire.", "quantifier": "every database, every non-decreasing sequence of tick times, every set_timer history", "why_tests_cant": "Trace property over unbounded time.", "anchors": ["patina_dxe_core/src/event_db.rs: EventDb::{set_timer,timer_tick}", "patina_dxe_core/src/events.rs: timer_tick, set_timer"]}
{"id": "C16", "title": "Restoring the TPL dispatches all and only the notifications above it", "statement": "restore_tpl(new) returns only when no notification with TPL > new is pending, every callback it runs executes at that notification's TPL, no notification at or below new is run by it, and the current TPL on return is new; raise/restore pairs nest.", "quantifier": "every set of pending notifications and every callback behaviour (callbacks may create, signal, close, raise and restore)", "why_tests_cant": "Re-entrancy: callbacks are arbitrary programs.", "anchors": ["patina_dxe_core/src/events.rs: raise_tpl, restore_tpl"]}
{"id": "C17", "title": "A TPL mutex is held by at most one holder and restores the TPL", "statement": "Two guards of the same TPL mutex are never alive at once; acquiring raises the TPL to the mutex's level, dropping the guard returns the TPL to its value before acquisition; try_lock on a held mutex fails and changes nothing.", "quantifier": "every program of nested lock/unlock over any number of mutexes, with interrupt-time callbacks", "why_tests_cant": "Mutual exclusion is a property of all schedules.", "anchors": ["patina_dxe_core/src/tpl_lock.rs: TplMutex", "sdk/patina/src/tpl_mutex.rs"]}
{"id": "C18", "title": "The protocol database is a consistent map", "statement": "After any history of install/uninstall, get_interface returns the interface most recently installed for (handle, protocol) and not uninstalled since; locate_handles returns exactly the handles on which the protocol is installed, in handle creation order; a handle is valid iff it carries at least one protocol; new handles are never null and never collide with a live handle.", "quantifier": "every history of protocol calls", "why_tests_cant": "Consistency over all histories.", "anchors": ["patina_dxe_core/src/protocol_db.rs: ProtocolDb::{install_protocol_interface,uninstall_protocol_interface,locate_handles,get_interface_for_handle,validate_handle}"]}
{"id": "C19", "title": "Protocol open exclusivity", "statement": "At any time at most one agent holds a protocol instance BY_DRIVER, at most one holds it EXCLUSIVE, and an exclusive holder never coexists with a different driver holder; a conflicting open fails with ACCESS_DENIED (or ALREADY_STARTED for the same driver) and changes nothing.", "quantifier": "every history of open/close calls", "why_tests_cant": "Exclusion must hold after any sequence of opens and closes.", "anchors": ["patina_dxe_core/src/protocol_db.rs: ProtocolInstance, add_protocol_usage, remove_protocol_usage"]}
{"id": "C20", "title": "A protocol instance in use cannot be uninstalled", "statement": "Uninstalling an interface that has any open usage fails with ACCESS_DENIED and changes nothing; after all usages are closed it succeeds; closing restores exactly the openability that existed before the matching open.", "quantifier": "every history", "why_tests_cant": "Trace property.", "anchors": ["patina_dxe_core/src/protocol_db.rs: uninstall_protocol_interface, remove_protocol_usage"]}
{"id": "C21", "title": "Registration delivers each new installation once per registration", "statement": "For each registration of a protocol, every later installation of that protocol makes its handle available from the registration key exactly once (until consumed), installations before the registration or of other protocols are never delivered.", "quantifier": "every history of register/install/locate-by-register", "why_tests_cant": "Trace property.", "anchors": ["patina_dxe_core/src/protocol_db.rs: register_protocol_notify, next_handle_for_registration"]}
{"id": "C22", "title": "Dependency expressions evaluate to their boolean meaning", "statement": "For every boolean expression over protocol GUIDs compiled to postfix depex opcodes ending in END, evaluation returns the truth value of the expression under 'GUID is installed'; parsing the opcode bytes recovers the opcodes.", "quantifier": "every expression tree of any depth, every set of installed protocols", "why_tests_cant": "Unbounded expression depth.", "anchors": ["core/patina_internal_depex/src/lib.rs: Depex::eval, Opcode::from"]}
{"id": "C23", "title": "Depex evaluation is total and conservative", "statement": "Every byte string parses and evaluates without panic or overrun; malformed, unknown or unterminated expressions evaluate to false (release build); once an expression evaluated true, it stays true on later evaluations as protocols are added.", "quantifier": "every byte string, every growing sequence of protocol sets", "why_tests_cant": "All byte strings.", "anchors": ["core/patina_internal_depex/src/lib.rs: Depex::{from,eval}"]}
{"id": "C24", "title": "BEFORE/AFTER/SOR are recognised only in first position and SOR blocks until scheduled", "statement": "A depex is associated (before/after) iff its first opcode is BEFORE/AFTER GUID followed by END; an SOR depex evaluates false until it is scheduled, and exactly as the remainder of the expression afterwards.", "quantifier": "every opcode sequence", "why_tests_cant": "All sequences.", "anchors": ["core/patina_internal_depex/src/lib.rs: is_associated, is_sor, schedule"]}
{"id": "C25", "title": "Alignment helpers", "statement": "align_up returns the least multiple of a power-of-two alignment not below the value or an error iff that does not fit; align_down the greatest not above; align_range covers the range minimally; non-power-of-two alignments are rejected.", "quantifier": "every value and alignment of the integer type", "why_tests_cant": "2^128 input pairs.", "anchors": ["sdk/patina/src/base.rs: align_up, align_down, align_range, is_power_of_two"]}
{"id": "C26", "title": "GUID text round-trips and parsing is exact", "statement": "Parsing the displayed text of any GUID yields that GUID; parsing accepts exactly the strings with 32 hex digits among dashes/blanks, and otherwise reports the right error; the GUID order is the byte order of its memory image.", "quantifier": "every 128-bit GUID, every string", "why_tests_cant": "2^128 GUIDs, unbounded strings.", "anchors": ["sdk/patina/src/base/guid.rs: OwnedGuid, try_from_string, Display"]}
{"id": "C27", "title": "Concurrent log appends never overlap or tear", "statement": "Any number of writers appending concurrently to the in-memory log, interleaved at any atomic step, reserve pairwise disjoint 8-byte aligned slots inside the log buffer; when all have finished, iterating the log returns every accepted message exactly once in reservation order and the rejected bytes are accounted in the discarded size.", "quantifier": "every number of writers, every message, every interleaving of atomic steps", "why_tests_cant": "Interleavings are unbounded.", "anchors": ["components/patina_adv_logger/src/memory_log.rs: AdvancedLog::add_log_entry, iter"]}
{"id": "C28", "title": "Log iteration is the inverse of appending", "statement": "For every sequence of appended messages that fit, iterating returns the same levels, phases, timestamps and bytes in order; a log reopened from its raw memory reads identically.", "quantifier": "every message sequence and buffer size", "why_tests_cant": "Unbounded sequences.", "anchors": ["components/patina_adv_logger/src/memory_log.rs: AdvancedLog::{initialize_memory_log,open_log,add_log_entry,iter}"]}
{"id": "C29", "title": "Device path utilities respect node structure", "statement": "For well-formed device paths: the node count and byte length match, copying yields the same bytes, concatenation yields the nodes of the first followed by those of the second, and remaining_device_path(a,b) returns the suffix of b iff a's nodes are a prefix of b's.", "quantifier": "every well-formed device path", "why_tests_cant": "Unbounded node lists.", "anchors": ["core/patina_internal_device_path/src/lib.rs: device_path_node_count, concat_device_path_to_boxed_slice, remaining_device_path, DevicePathWalker"]}
{"id": "C30", "title": "SDK device-path buffers are faithful node lists", "statement": "Building a device path from nodes and iterating it returns those nodes plus the terminator; append_device_path concatenates; slice_end(n) returns the last n nodes; starts_with is the prefix relation; iterating instances splits at instance terminators.", "quantifier": "every node list", "why_tests_cant": "Unbounded node lists.", "anchors": ["sdk/patina/src/uefi_protocol/device_path.rs: DevicePathBuf, DevicePath, IterInstance"]}
{"id": "C31", "title": "FFS section serialise/parse round trip", "statement": "Serialising any composed section and parsing it back yields the same type, header fields and content, for standard and extended sizes; iterating the concatenation of serialised, 4-byte padded sections yields exactly those sections.", "quantifier": "every section list of any sizes", "why_tests_cant": "Size-boundary cases over 2^32 sizes and unbounded lists.", "anchors": ["sdk/patina_ffs/src/section.rs: SectionHeader::serialize, Section::new_from_buffer, SectionIterator"]}
{"id": "C32", "title": "FFS file serialise/parse round trip", "statement": "Serialising any file and parsing it yields the same name, type, attributes, erase polarity and content, and the header and data checksums verify; any single-byte corruption of header (outside state/file-checksum) is detected.", "quantifier": "every file", "why_tests_cant": "All contents and all corruptions.", "anchors": ["sdk/patina_ffs/src/file.rs: File::serialize, FileRef::new"]}
{"id": "C33", "title": "Firmware volume serialise/parse round trip", "statement": "Serialising a volume and parsing it yields the same non-pad files in order, each 8-byte aligned with content at its required alignment, with header checksum and length correct.", "quantifier": "every volume", "why_tests_cant": "Unbounded file lists.", "anchors": ["sdk/patina_ffs/src/volume.rs: Volume::serialize, VolumeRef::new, files"]}
{"id": "C34", "title": "Parsing untrusted firmware bytes is safe", "statement": "For every byte string, opening it as a volume, listing files and sections terminates, never reads outside the string and never panics.", "quantifier": "every byte string", "why_tests_cant": "All byte strings.", "anchors": ["sdk/patina_ffs/src/volume.rs: VolumeRef, FileRefIter", "sdk/patina_ffs/src/file.rs: FileRef::new", "sdk/patina_ffs/src/section.rs: Section::new_from_buffer, SectionIterator"]}
{"id": "C35", "title": "PE image loading and relocation", "statement": "Loading copies exactly the headers and each section's bytes to their virtual addresses and zero elsewhere; relocating to a destination adds exactly (destination - preferred base) modulo 2^64 (2^32) to each listed fixup and changes no other byte besides the image base field; relocating back restores the image.", "quantifier": "every image, every relocation table of 64-bit, 32-bit and padding entries, every destination", "why_tests_cant": "All images and destinations.", "anchors": ["patina_dxe_core/src/pecoff.rs: load_image, relocate_image", "patina_dxe_core/src/pecoff/relocation.rs: parse_relocation_blocks"]}
{"id": "C36", "title": "Configuration tables behave as a map", "statement": "install_configuration_table(guid, ptr) makes ptr the unique entry for guid, null deletes it (NOT_FOUND if absent), every other entry is untouched and keeps its order, and the count equals the number of distinct GUIDs.", "quantifier": "every history of calls", "why_tests_cant": "Trace property.", "anchors": ["patina_dxe_core/src/config_tables.rs: core_install_configuration_table"]}
{"id": "C37", "title": "Runtime lists published to the runtime protocol are well-formed", "statement": "After any history of adding/removing runtime images and events, walking forward links from the protocol head visits exactly the live entries in insertion order and returns to the head, and back links mirror forward links.", "quantifier": "every history", "why_tests_cant": "Pointer structure over unbounded lists.", "anchors": ["patina_dxe_core/src/runtime.rs: RuntimeData::update_protocol_lists"]}
{"id": "C38", "title": "Dispatcher respects dependencies and runs each driver at most once", "statement": "The dispatcher starts a driver only if its depex is satisfied (or all architectural protocols are present when it has none), or it is BEFORE/AFTER a driver being started, in which case it runs immediately before/after it; no discovered driver is started twice; a driver that fails security with SECURITY_VIOLATION stays pending until trusted.", "quantifier": "every set of discovered drivers, every behaviour of the started images", "why_tests_cant": "Trace property over all driver sets.", "anchors": ["patina_dxe_core/src/dispatcher.rs: dispatch, core_schedule, core_trust"]}
{"id": "C39", "title": "Dispatch loop terminates with nothing runnable left", "statement": "If images add no new drivers, the dispatcher terminates, and on return no pending driver's dependency is satisfied.", "quantifier": "every finite driver set", "why_tests_cant": "Termination and completeness.", "anchors": ["patina_dxe_core/src/dispatcher.rs: core_dispatcher"]}
{"id": "C40", "title": "Connecting a controller tries each driver binding at most once per start, in priority order", "statement": "ConnectController considers candidates in the specified source order without duplicates, starts each at most once, terminates, and reports success iff one started or the remaining device path is the end node.", "quantifier": "every set of bindings and every supported/start behaviour", "why_tests_cant": "Callbacks are arbitrary.", "anchors": ["patina_dxe_core/src/driver_services.rs: core_connect_single_controller"]}
{"id": "C41", "title": "HOB list discovery is faithful", "statement": "Walking a well-formed HOB list visits every HOB exactly once in order and stops at the end marker; sizes add up to the list size.", "quantifier": "every HOB list", "why_tests_cant": "Unbounded lists.", "anchors": ["sdk/patina_pi/src/hob.rs: HobList::discover_hobs, HobIter, get_c_hob_list_size"]}
{"id": "C42", "title": "Pool allocations are disjoint, aligned and checked on free", "statement": "Live pool/heap blocks handed out by an allocator are pairwise disjoint, inside memory the allocator obtained from the GCD, large enough and aligned; a freed block is reusable; freeing with a foreign or corrupted header is rejected.", "quantifier": "every history of allocate/free of all sizes and alignments", "why_tests_cant": "Trace property.", "anchors": ["patina_dxe_core/src/allocator/fixed_size_block_allocator.rs: FixedSizeBlockAllocator::{alloc,dealloc,expand}", "patina_dxe_core/src/allocator/uefi_allocator.rs: allocate_pool, free_pool"]}
{"id": "C43", "title": "Page allocator returns granularity-aligned runs and only frees its own", "statement": "allocate_pages returns runs aligned to the allocator's granularity, of at least the requested pages and owned by the allocator; free_pages succeeds only for runs owned by the allocator; memory-type page statistics equal the pages outstanding.", "quantifier": "every history", "why_tests_cant": "Trace property.", "anchors": ["patina_dxe_core/src/allocator/fixed_size_block_allocator.rs: allocate_pages, free_pages, reserve_memory_pages"]}
{"id": "C44", "title": "Stall waits at least the requested time", "statement": "stall(us) waits, through the metronome, for at least the requested number of microseconds, for every request size and tick period.", "quantifier": "every microsecond count and tick period", "why_tests_cant": "2^96 inputs.", "anchors": ["patina_dxe_core/src/misc_boot_services.rs: stall"]}
{"id": "C45", "title": "ExitBootServices signals once and is atomic on failure", "statement": "Over any sequence of ExitBootServices calls the before-exit groups are signalled exactly once, a call with a stale map key leaves memory services usable, and a successful call leaves the memory map locked.", "quantifier": "every sequence of calls", "why_tests_cant": "Trace property.", "anchors": ["patina_dxe_core/src/misc_boot_services.rs: exit_boot_services"]}
{"id": "C46", "title": "Memory-space services never panic in a release build", "statement": "In a release build no sequence of memory-space service calls, with any arguments, panics; in a debug build the panics that remain are arithmetic overflow on absurd ranges and the failed-service assertions.", "quantifier": "every sequence of memory-space calls with arbitrary arguments", "why_tests_cant": "Unbounded call sequences and 64-bit arguments.", "anchors": ["patina_dxe_core/src/gcd/spin_locked_gcd.rs: GCD"]}
{"id": "C47", "title": "Attributes never exceed capabilities", "statement": "After any sequence of memory-space calls, every byte of existing memory has attributes that are a subset of its capabilities.", "quantifier": "every sequence of memory-space calls", "why_tests_cant": "Trace invariant.", "anchors": ["patina_dxe_core/src/gcd/memory_block.rs: MemoryBlock::{attribute_transition,capabilities_transition}"]}
{"id": "C48", "title": "Installing or uninstalling several protocols is all or nothing", "statement": "InstallMultipleProtocolInterfaces either installs every protocol of the list on one handle or leaves every installation as it was; UninstallMultipleProtocolInterfaces either removes all of them or leaves every installation as it was.", "quantifier": "every database state, handle and list of protocol/interface pairs", "why_tests_cant": "The failing position and the state are arbitrary.", "anchors": ["patina_dxe_core/src/protocols.rs: install_multiple_protocol_interfaces, uninstall_multiple_protocol_interfaces"]}
{"id": "C49", "title": "SetWatchdogTimer and CalculateCrc32 honour their arguments", "statement": "SetWatchdogTimer passes the driver the timeout in 100 ns units, saturating instead of wrapping, and reports whether the driver accepted; CalculateCrc32 succeeds exactly on non-null, non-empty arguments and then stores the checksum of exactly those bytes.", "quantifier": "every timeout, driver answer and buffer", "why_tests_cant": "The boundary is near 2^64 / 10^7 seconds.", "anchors": ["patina_dxe_core/src/misc_boot_services.rs: set_watchdog_timer, calculate_crc32"]}
{"id": "C50", "title": "Log text reaches its sinks unchanged", "statement": "For every record, the pieces the formatter produces reach the serial port and the memory log as chunks that concatenate to the formatted text, in order and without loss; parsing the log back yields that text, with metadata exactly at line starts and phase changes; per-target filters apply by first matching prefix.", "quantifier": "every sequence of text pieces, filters, log states and time stamps", "why_tests_cant": "Piece boundaries against the 128-byte buffer are unbounded combinations.", "anchors": ["components/patina_adv_logger/src/logger.rs: BufferedWriter, log_write, enabled", "components/patina_adv_logger/src/parser.rs: Parser::write_log, get_time_str"]}
{"id": "C51", "title": "Opening and reading any bytes as a log is safe", "statement": "Opening an arbitrary byte string as a log never panics in a release build; iterating it terminates and returns only pieces of the byte string that lie behind the header.", "quantifier": "every byte string", "why_tests_cant": "Attacker- or corruption-controlled input space.", "anchors": ["components/patina_adv_logger/src/memory_log.rs: AdvancedLog::open_log, AdvLogIterator::next"]}
{"id": "C53", "title": "The page table follows the memory map", "statement": "From the moment the page tables are built, every page is mapped exactly as the memory map says: memory that does not exist or is read-protected is not mapped, everything else is mapped with its recorded cacheability, read-only and execute-protect bits; allocated memory is mapped non-executable; freed memory is unmapped; a paging failure is reported and rolled back.", "quantifier": "every sequence of memory services after start-up and every failure of the paging code", "why_tests_cant": "The two structures drift apart only after particular histories and failure points.", "anchors": ["patina_dxe_core/src/gcd/spin_locked_gcd.rs: SpinLockedGcd::{set_paging_attributes,init_paging,allocate_memory_space,free_memory_space,remove_memory_space,set_memory_space_attributes}", "patina_dxe_core/src/dxe_services.rs: core_set_memory_space_attributes"]}
{"id": "C52", "title": "The resource descriptors of the hand-off list become the memory and I/O maps", "statement": "When the boot code has read the hand-off list, every address that exactly one memory descriptor claims is in the memory map with the type, capabilities and attributes that descriptor asks for, every other address is as it was, and likewise for I/O; the first map holds exactly the free memory of the hand-off table; descriptors that make sense and do not overlap are accepted without complaint.", "quantifier": "every list of hand-off blocks, every address, debug and release builds", "why_tests_cant": "Descriptor lists come from platform firmware; overlaps and attribute combinations are unbounded.", "anchors": ["patina_dxe_core/src/gcd.rs: init_gcd, add_hob_resource_descriptors_to_gcd, remove_range_overlap", "patina_dxe_core/src/gcd/spin_locked_gcd.rs: get_capabilities, GCD::init", "sdk/patina_pi/src/hob.rs: ResourceDescriptor::attributes_valid"]}
{"id": "C54", "title": "Disconnecting stops exactly the drivers that manage the controller", "statement": "DisconnectController calls Stop only on drivers that hold the controller open BY_DRIVER, when the call is made and when their turn comes, restricted to the named driver if there is one; each is told to stop only children it created on that controller (only the named child if one is named) and then, if those stopped and it has no other children, to leave the controller. Success means that no driver managed the controller or at least one let go; bad handles are refused without a call; it never panics.", "quantifier": "every protocol database history, every behaviour of the Stop functions including arbitrary database calls of their own", "why_tests_cant": "Drivers' Stop functions are arbitrary code that changes the database during the walk.", "anchors": ["patina_dxe_core/src/driver_services.rs: core_disconnect_controller"]}
{"id": "C55", "title": "GetMemoryMap reports every page once, with the right type and attributes", "statement": "The memory map is in ascending order, its descriptors are not empty, start on pages, do not overlap, and neighbours that touch differ. Every address in it has the memory type of the allocator that owns it or else of its kind of memory, and the capabilities without access protection, with the runtime bit exactly for runtime memory. Every page of memory is in it. What a caller holds is reported under the type asked for, never as free memory. The service writes the map only into a buffer that is large enough and otherwise returns the size needed; the bytes written are the entries, 40 bytes apart.", "quantifier": "every history of allocator and memory space calls, every address, every buffer size and combination of null pointers", "why_tests_cant": "The map depends on the whole history of allocations; an operating system reuses whatever is reported free, so one wrong page in any state corrupts memory.", "anchors": ["patina_dxe_core/src/allocator.rs: get_memory_map_descriptors, merge_blocks, get_memory_map, memory_type_for_handle"]}
{"id": "C56", "title": "The map key tells whether the memory map has changed", "statement": "ExitBootServices accepts the key that GetMemoryMap returned as long as the memory map is the same, and refuses it once the map has changed.", "quantifier": "every history between the two calls, every content of uninitialised padding", "why_tests_cant": "The key is a checksum over memory: whether two different maps share it, or one map has two, cannot be sampled.", "anchors": ["patina_dxe_core/src/allocator.rs: get_memory_map, terminate_memory_map"]}
{"id": "C57", "title": "StartImage runs an image once and returns what its Exit said", "statement": "Between two loads, the entry point of an image runs at most once. StartImage of a loaded, unstarted image enters it. When the running image calls Exit or returns, everything it left running is dropped, control returns to the StartImage that started it, and that returns the status and exit data given to Exit; the image stays loaded exactly if it is a driver that succeeded. An image cannot exit another running image, and Exit of an image that was never started unloads it. No other image is affected.", "quantifier": "every history of LoadImage, StartImage, UnloadImage and Exit calls at every nesting depth, with any database calls in between", "why_tests_cant": "Nested starts, exits from inner calls and unload functions give unboundedly many interleavings of coroutines.", "anchors": ["patina_dxe_core/src/image.rs: start_image, core_start_image, exit"]}
{"id": "C58", "title": "Unloading an image leaves nothing of it behind", "statement": "UnloadImage refuses unknown handles and started images without an unload function, and changes nothing then; an unload function that fails keeps the image. When an image goes, its record and its entries in the debug image table and runtime list are gone, it holds no protocol open, its own protocols are uninstalled, and no other image, protocol or open is affected.", "quantifier": "every history, every way an image can be unloaded, every state of the protocol database", "why_tests_cant": "What must be cleaned up depends on everything the image did.", "anchors": ["patina_dxe_core/src/image.rs: core_unload_image, unload_image", "patina_dxe_core/src/config_tables/debug_image_info_table.rs", "patina_dxe_core/src/runtime.rs: remove_runtime_image"]}
{"id": "C59", "title": "LoadImage gives a fresh handle with the image's protocols and the security verdict", "statement": "A loaded image has a handle that named nothing before, carrying its loaded image protocol, device path and resources; the status is the verdict of the platform's security protocols; every loaded image is in the debug image table and every loaded runtime driver in the runtime list; a failed load leaves nothing behind; the services do not panic.", "quantifier": "every history, every answer of the security protocols and every failure of the loader", "why_tests_cant": "Which handle is free and what is installed depends on the history; failures can occur at every step.", "anchors": ["patina_dxe_core/src/image.rs: core_load_image, load_image, authenticate_image"]}
{"id": "C60", "title": "Every component runs at most once, as soon as what it asks for is there", "statement": "A component given to the core is run at most once and only with all its parameters available, receiving exactly what is stored under their types; dispatch ends; a component that is left over waits for a service nobody published, a HOB that is not in the list or a locked configuration; services published by a component or given at build time are visible to every component that runs later.", "quantifier": "every list of components, configurations and services, every HOB list, every behaviour of the component bodies and every answer of the driver dispatch", "why_tests_cant": "Which component runs when depends on what all others publish, lock and queue; unit tests fix a few small sets.", "anchors": ["patina_dxe_core/src/lib.rs: core_dispatcher, dispatch_components, start, parse_hobs, with_component, with_config, with_service", "sdk/patina/src/component/struct_component.rs", "sdk/patina/src/component/params.rs"]}
{"id": "C61", "title": "Components whose parameters alias are rejected", "statement": "A component whose parameters could give it a configuration mutably and at the same time a second time, or twice the command queue, is refused when it is registered, in whatever order and nesting its parameters come; no other component is refused; parameters that were accepted can always be handed out without a panic.", "quantifier": "every parameter list, nested in options and tuples, on every storage a build can reach", "why_tests_cant": "The check keeps sets of accesses across parameters; all orders and combinations matter.", "anchors": ["sdk/patina/src/component/params.rs: init_state", "sdk/patina/src/component/metadata.rs: Access", "sdk/patina/src/component/storage.rs: Param for &Storage, &mut Storage"]}
{"id": "C62", "title": "The typed storage returns what was last stored under the type", "statement": "A configuration, service or HOB is found again under its type and never under another; configuration parameters bring a default and mutable ones unlock it; all configurations end up locked; a HOB parameter delivers the data of every guided HOB with the type's GUID in list order.", "quantifier": "every sequence of builder calls and component effects, every HOB list", "why_tests_cant": "The storage keeps type-erased cells behind indices; a wrong index shows only for particular histories.", "anchors": ["sdk/patina/src/component/storage.rs: Storage", "sdk/patina/src/component/hob.rs", "patina_dxe_core/src/lib.rs: parse_hobs"]}
{"id": "C63", "title": "Memory attributes read and set are those in force", "statement": "SetMemoryAttributes and ClearMemoryAttributes refuse exactly the requests that are not whole pages or name no or other attributes than read, write and execute protection; when they succeed every address of the range gained or lost exactly those attributes, nothing else changed and the page table follows; GetMemoryAttributes reports the protection every address of the range has. The page attributes of the component memory service give every page exactly the access and cacheability asked for, and read back what was set.", "quantifier": "every memory map and page table, every range, every attribute set, faults in the paging code, both builds", "why_tests_cant": "Ranges may cross any number of descriptors with any attributes, of which each must keep its own.", "anchors": ["patina_dxe_core/src/memory_attributes_protocol.rs: get_memory_attributes, set_memory_attributes, clear_memory_attributes", "patina_dxe_core/src/memory_manager.rs: set_page_attributes, get_page_attributes", "sdk/patina/src/component/service/memory.rs: AccessType, CachingType"]}
{"id": "C64", "title": "Loaded images are protected as their sections demand", "statement": "After an image is loaded every address of a section is executable only if the section is code and writable only if it is not code and may be written; none is both, in the memory map or to the processor; memory outside the sections is untouched. Releasing the image makes its sections writable and not executable. The lowest page of an image stack cannot be accessed. At ExitBootServices runtime images lose their protections and keep their cacheability.", "quantifier": "every memory map and page table, every section list, overlapping sections included, both builds", "why_tests_cant": "A single page that stays writable and executable is invisible to tests that only load and run images.", "anchors": ["patina_dxe_core/src/image.rs: apply_image_memory_protections, remove_image_memory_protections, ImageStack, runtime_image_protection_fixup_ebs"]}
{"id": "C65", "title": "The memory attributes table lists exactly the runtime memory with its protections", "statement": "The memory attributes table has an entry for every address of runtime services code and data and for no other, in order and without overlap, with the protections in force there; no entry is both writable and executable.", "quantifier": "every history of allocations and frees, every set of allocators", "why_tests_cant": "The table is made from the merged memory map of any shape the allocations so far left.", "anchors": ["patina_dxe_core/src/config_tables/memory_attributes_table.rs: core_install_memory_attributes_table"]}
{"id": "C66", "title": "A request to management mode is delivered whole and the answer is the handler's", "statement": "Communicate with a registered buffer either refuses the request without touching memory or triggers management mode exactly once, at a moment when the first buffer with that id holds the recipient, the length and exactly the caller's bytes, with nothing written outside it; on success the bytes returned are those management mode left behind the header, and an answer whose header was tampered with is refused. No sequence of calls, handlers and outside writes to memory panics. A buffer is made exactly of page-aligned regions with room for the header that do not reach the end of the address space.", "quantifier": "every list of buffers (overlapping or not), memory content, handler behaviour, request and history of calls with arbitrary memory changes in between", "why_tests_cant": "the handler and other owners of the shared memory may do anything; tests use a mock that leaves memory alone", "anchors": ["components/patina_mm/src/component/communicator.rs communicate", "components/patina_mm/src/config.rs CommunicateBuffer", "components/patina_mm/src/component/sw_mmi_manager.rs trigger_sw_mmi"]}
{"id": "C67", "title": "The boot performance table holds exactly the records added, in order, whatever happens", "statement": "After any history of additions, refused additions, replacement by the records of earlier phases, publication (successful or not) and memory changes elsewhere, iterating over the performance table gives exactly the records that were added successfully, in order; the length in its header is that of everything; once published, memory at the published address holds signature, length, the basic boot record and the records. A record of at most 255 bytes is always accepted before publication; afterwards it is accepted exactly if it fits, and otherwise OUT_OF_RESOURCES is returned and no earlier record changes. Nothing is ever written outside the pages allocated for the table, which have room for at least 64 KiB more. Iterating over bytes gives records exactly if the bytes are records.", "quantifier": "all histories, all records of any content and length, all allocator answers, both builds, all memory contents", "why_tests_cant": "tests add a few records of one kind and publish once; full tables, records cut off in the middle, refused allocations and over-long records are not tried", "anchors": ["sdk/patina/src/performance/record.rs: PerformanceRecord::write_into, PerformanceRecordBuffer, Iter", "sdk/patina/src/performance/table.rs: FBPT::{add_record, set_perf_records, report_table}"]}
{"id": "C68", "title": "A performance measurement is recorded under the right id with the right data, or refused without effect", "statement": "create_performance_measurement, for every caller, name, GUID, time, address, identifier and attribute: the id is the one described by the tables of names and ids (identifiers without a meaning of their own get a last hex digit of zero for a start and nonzero for an end, and agree otherwise); if it describes an event, exactly the record of that event with this id, time, GUID, name and number is added (OUT_OF_RESOURCES if the published table is full), the image count counts the image loads; otherwise INVALID_PARAMETER is returned and nothing changes. The records and image counts of the HOBs of earlier phases are all taken over in order; the records management mode hands out in pieces arrive whole and are added in order.", "quantifier": "all arguments and states, all HOB data and answers of management mode, both builds", "why_tests_cant": "the unit tests call each kind once with one identifier and a mock table; malformed HOBs, names of any length and misbehaving management mode are not tried", "anchors": ["sdk/patina/src/performance/measurement.rs: create_performance_measurement, _create_performance_measurement, event_callback::fetch_and_add_mm_performance_records", "sdk/patina/src/performance/record/known.rs", "sdk/patina/src/performance/record/extended.rs", "sdk/patina/src/performance/record/hob.rs"]}
{"id": "C69", "title": "A stack trace shows the calls that are on the stack", "statement": "dump_with (x86-64), for every memory content: if pc lies in a function described by the tables of its image and the stack holds the frames of up to twenty calls, the outermost returning to zero, the lines printed are exactly these calls from the innermost, each with its stack pointer, the address it returns to and its offset in its image, and the result is success; a deeper stack gives twenty lines and an error; a stack that cannot be followed further gives the lines up to there and an error. Whatever memory holds, the trace ends.", "quantifier": "all memory contents, images, function tables, prologs, stacks and addresses", "why_tests_cant": "the unit tests unwind a few functions of one binary; prologs with every mix of codes, images at any distance, malformed headers and any depth of calls are not tried", "anchors": ["core/patina_stacktrace/src/stacktrace.rs: dump_with", "core/patina_stacktrace/src/pe.rs: locate_image, get_exception_table, get_image_name", "core/patina_stacktrace/src/x64/runtime_function.rs: find_function", "core/patina_stacktrace/src/x64/unwind.rs: parse, get_current_stack_frame, get_stack_pointer_offset"]}
{"id": "C70", "title": "Firmware volume services show what the volume holds", "statement": "For a firmware volume in memory that was installed: GetNextFile called with keys 0, 1, 2, ... gives every file of the asked type once, in volume order, with its name, type, attributes and size, and then NOT_FOUND; ReadFile gives the type, the attributes and exactly the data of the first file of that name, never writing past the reported size; ReadSection gives exactly the data of the n-th section of a type, looking inside encapsulations; Read gives exactly the bytes of a block; GetBlockSize gives the size and the number of blocks; installing from HOBs serves every volume; unknown protocols, missing files and unreadable volumes are refused without touching memory.", "quantifier": "every volume that can be written (any number of files and sections, nested to any depth, any extractor), every place in memory, every key, name, type, instance, buffer, size, block and offset, every list of HOBs, checked and unchecked builds", "why_tests_cant": "A test reads a handful of files from one or two images; the claim ranges over all volumes, keys, nesting depths, extractors, buffer sizes and block maps.", "anchors": ["patina_dxe_core/src/fv.rs: core_fvb_read, fvb_get_block_size, fv_read_file, fv_read_section, fv_get_next_file, install_fv_device_path_protocol, core_install_firmware_volume, parse_hob_fvs", "patina_dxe_core/src/decompress.rs: CoreExtractor", "sdk/patina_ffs/src/volume.rs: new_from_address, files, lba_info", "sdk/patina_ffs/src/file.rs: sections_with_extractor"]}
{"id": "C71", "title": "Variables are read, written and enumerated faithfully", "statement": "Over a firmware whose variable services do what the UEFI specification says: reading a variable gives its data and attributes exactly, whatever size the caller guesses; asking for its size gives its size; a variable that does not exist is reported as not found; what is written is what is then read and no other variable changes; enumerating from the start, or from a variable, visits every (later) variable exactly once and then ends, and an error that the firmware reports in between does not lose the place. A name without terminating null never reaches the firmware.", "quantifier": "every store of variables with distinct non-empty names, every variable in it, every size hint, every conversion of the data, every starting point of the enumeration, both build modes", "why_tests_cant": "the buffer handling depends on how the lengths of consecutive names and of hint and data compare, over all stores; tests use mocks that share the caller's misreading of the sizes", "anchors": ["sdk/patina/src/runtime_services.rs: RuntimeServices::{set_variable,get_variable,get_variable_size_and_attributes,get_next_variable_name,get_variable_unchecked,get_next_variable_name_unchecked}", "sdk/patina/src/runtime_services/variable_services.rs: VariableNameIterator"]}
{"id": "C72", "title": "A debugger finds exactly the loaded images", "statement": "After any history of loading and unloading, the published debug image table has its update bit clear and lists every loaded image once, in live memory, and nothing else is held in memory for it; a debugger that stops the machine after any single write either sees the update bit set or finds a finished, complete table, and its own acknowledgement of earlier changes is not disturbed before the update ends; every registration and removal that is finished is reported as a modification.", "quantifier": "every history of registrations, removals and acknowledgements in which a handle names one loaded image at a time and fewer than 2^32 - 129 are loaded; every point between two writes", "why_tests_cant": "growth, removal from the middle and freeing interact over arbitrary histories; stopping points are not under a test's control", "anchors": ["patina_dxe_core/src/config_tables/debug_image_info_table.rs: initialize_debug_image_info_table, core_new_debug_image_info_entry, core_remove_debug_image_info_entry"]}
{"id": "C73", "title": "A debugger reads and writes the program's memory", "statement": "Reading memory gives the bytes that are there, as many of those asked for as are readable, and faults on none; writing puts exactly the given bytes at the given addresses, changes no other byte and leaves the protection of every page as it was; a write that would reach a byte that is not accessible changes nothing.", "quantifier": "every address, length and content, every page table and every set of faulting addresses, both build modes", "why_tests_cant": "whether the pieces of a long access land in the right place depends on how the range lies over pages and on their protections; tests use one page in ordinary memory", "anchors": ["core/patina_debugger/src/memory.rs: read_memory, write_memory, check_range_accessibility, check_paging_range", "core/patina_debugger/src/arch/x64.rs: memory_poke_test"]}
{"id": "C74", "title": "Breakpoints come and go without a trace", "statement": "After any history of breakpoints set and removed, memory is the program's own, with the breakpoint instruction at exactly the addresses that are set; each request reports whether it took effect; once all are removed memory is what it was.", "quantifier": "every history of setting and removing, every placement of the addresses, every content of memory, both architectures' instruction lengths", "why_tests_cant": "one lost or doubled restore shows only under particular histories", "anchors": ["core/patina_debugger/src/dbg_target/breakpoint.rs: SwBreakpoint", "core/patina_debugger/src/system.rs"]}
{"id": "C75", "title": "Registers are shown and set as they are, and the program goes on where it should", "statement": "A client that lays the register packet out as the description says shows every register's value; a packet it sends back sets the registers it holds and no other; a program stopped by an exception goes on with the context that the user left; at a breakpoint the user sees the address of the instruction, and execution goes on there or, if a breakpoint instruction is there, behind it; a failure of the protocol in between changes nothing.", "quantifier": "every context, every packet, every change a user makes, every number of failures of the protocol", "why_tests_cant": "the packet layout has 28 fields of two widths and is written down three times; that they agree must hold for every value", "anchors": ["core/patina_debugger/src/arch/x64.rs: X64CoreRegs, gdb_serialize, gdb_deserialize, from_context, write_to_context, process_entry, process_exit, set_single_step", "core/patina_debugger/src/arch/xml/x64_registers.xml", "core/patina_debugger/src/debugger.rs: enter_debugger"]}
{"id": "C76", "title": "Watchpoints watch what was asked for", "statement": "After any history of watchpoints set and removed, the debug registers watch exactly the ranges and kinds of access that were accepted and not removed; the fifth is refused; bits of DR7 that do not belong to a slot are as they were.", "quantifier": "every history of setting and removing, every address, length and kind, every prior content of the debug registers", "why_tests_cant": "bit fields of one register hold all four slots; an update for one slot must leave the other three for every content", "anchors": ["core/patina_debugger/src/arch/x64.rs: add_watchpoint, remove_watchpoint, initialize"]}
{"id": "C77", "title": "The debugger's text arrives whole, and it stops at the modules asked for", "statement": "What a monitor command writes reaches the client complete and in order however it is cut into pieces, and with an offset from that byte on; the register description, fetched in pieces of any size, is the description; in any history of requests and module loads the program stops at a load exactly if a standing request names it, and the list of modules holds the loads in their order.", "quantifier": "every sequence of writes, every offset, every sequence of piece sizes, every history of requests and loads, every module name", "why_tests_cant": "pieces meet buffer boundaries in unboundedly many ways; a history of requests has no bound", "anchors": ["core/patina_debugger/src/dbg_target/monitor.rs: handle_monitor_cmd, Buffer", "core/patina_debugger/src/dbg_target.rs: target_description_xml", "core/patina_debugger/src/system.rs: SystemState, Modules"]}
{"id": "C78", "title": "An exception leaves the interrupted program as the handler wants it", "statement": "The handler of an exception is told the exception's number and is given a context that holds every register of the interrupted program and the error code; when it returns, the program goes on with the registers that the handler left in the context, and with everything else as it was.", "quantifier": "every vector, every state of the interrupted program, every change a handler makes to the context, every content of the memory below the stack pointer", "why_tests_cant": "a slip in the order of some ninety pushes and pops shows only for particular register contents, and an interrupt can come at any instruction; tests cannot run it on a host", "anchors": ["core/patina_internal_cpu/src/interrupts/x64/interrupt_handler.asm", "core/patina_internal_cpu/src/interrupts/x64/interrupt_manager.rs: INTERRUPT IDT initialisation", "patina_internal_cpu ExceptionContextX64"]}
{"id": "C79", "title": "Exception handlers are called as registered", "statement": "An exception calls the handler that was registered last for its type and not removed, and no other; registering a second one, removing none, or naming a type that does not exist is refused; handlers may themselves register, remove and cause exceptions.", "quantifier": "every history of registrations, removals and exceptions, every nesting of handlers, every number of exception types", "why_tests_cant": "whether locks, nesting and the table agree depends on the history and on what handlers do", "anchors": ["core/patina_internal_cpu/src/interrupts/exception_handling.rs: register_exception_handler, unregister_exception_handler, exception_handler", "patina_dxe_core/src/cpu_arch_protocol.rs: register_interrupt_handler"]}
{"id": "C80", "title": "Hardware interrupts reach the handlers registered for them", "statement": "A signal of an enabled source runs the handler registered for that source, with its number, once until it is ended; registering enables and removing disables; the state and trigger type of a source read as they were set; a failed call changes nothing.", "quantifier": "every source, every history of calls and signals, every number of sources of the controller", "why_tests_cant": "the mapping of source numbers to registers and bits has to be right for every number; the code runs only on AArch64 hardware", "anchors": ["patina_dxe_core/src/hw_interrupt_protocol.rs", "core/patina_internal_cpu/src/interrupts/aarch64/gic_manager.rs: AArch64InterruptInitializer"]}
{"id": "C81", "title": "A stack trace on AArch64 shows the calls on the stack", "statement": "For an interrupted program on AArch64, the trace has one line for each call on the stack, from the innermost, with its stack pointer, the address it returns to and its place in its image, for all prologs the unwind information can describe; and it always ends.", "quantifier": "every stack of calls, every layout of images, function tables and unwind information, every prolog, every content of memory", "why_tests_cant": "the unwind codes describe arbitrary prologs in a compact bit format; a wrong mask or sign shows only for particular prologs", "anchors": ["core/patina_stacktrace/src/aarch64/runtime_function.rs: find_function", "core/patina_stacktrace/src/aarch64/unwind.rs: UnwindInfo::parse, get_stack_pointer_offset_packed, get_stack_pointer_offset_unpacked, get_current_stack_frame", "core/patina_stacktrace/src/stacktrace.rs: dump_with"]}
{"id": "C82", "title": "Memory that earlier boot phases allocated is kept", "statement": "Memory the hand-off blocks describe as allocated, and firmware volumes in memory-mapped I/O, belong to their owner once the core has started, and no later allocation returns any of it; nothing that no block describes is taken, except page zero, which nobody gets.", "quantifier": "every list of hand-off blocks, every memory map they meet, every later sequence of memory calls, both architectures", "why_tests_cant": "whether a block is reserved depends on the map, on its alignment, on all blocks before it and on what the core itself allocates between them; a missed block shows only when its memory is handed out and overwritten", "anchors": ["patina_dxe_core/src/allocator.rs: process_hob_allocations, init_memory_support, core_allocate_pages, get_or_create_allocator, handle_for_memory_type", "patina_dxe_core/src/allocator/fixed_size_block_allocator.rs: allocate_pages, reserve_memory_pages"]}
{"id": "C83", "title": "The PI crate's volume reader gives back what a firmware volume holds", "statement": "Opening a well-formed firmware volume with the PI crate gives the attributes, block map and name written in it; its file iterator gives exactly the files written, in order, with their names, types, attributes and content; the section iterator gives the sections of a file and, after each encapsulation section, those within it, to any depth; of any other bytes, whatever is reported lies inside them with a right header check, and the reader neither panics nor loops.", "quantifier": "every volume, file and section layout; every extractor; every string of bytes", "why_tests_cant": "the layouts nest without bound and sizes, alignments and checks interact; hostile lengths are a vanishing part of the inputs tests try", "anchors": ["sdk/patina_pi/src/fw_fs.rs: FirmwareVolume::new, file_iter, lba_info, File::new, content, section_iter_with_extractor, Section::new, FvFileIterator, FileSectionIterator"]}
{"id": "C84", "title": "Registers, resumption, steps and watchpoints of an AArch64 target", "statement": "A debugger client sees the registers of a stopped AArch64 program as they are, sets exactly those it sends, and is told why the program stopped; the program goes on with what the user left, behind a breakpoint instruction of its own, whatever protocol failures came before; a step is one step and continuing does not step; after any history of watchpoints set and removed the processor watches exactly the ranges in force; testing an address says whether it can be read and disturbs nothing.", "quantifier": "every context, packet, exception syndrome, memory, history of stops and of watchpoint requests", "why_tests_cant": "register packets are a product of 35 registers; step mode and the four slots depend on the whole history; exceptions inside the debugger depend on the schedule", "anchors": ["core/patina_debugger/src/arch/aarch64.rs: process_entry, process_exit, set_single_step, initialize, add_watchpoint, remove_watchpoint, memory_poke_test, check_memory_poke_test, gdb_serialize, gdb_deserialize, from_context, write_to_context, from_raw_id, Wcr", "core/patina_debugger/src/debugger.rs: handle_interrupt", "core/patina_debugger/src/arch/xml/aarch64_registers.xml"]}
{"id": "C85", "title": "Values the SDK's boot services hand out", "statement": "What a driver gets from the SDK's wrappers is what the firmware gave: all handles, the whole memory map with its key, the exit data of an image, the drivers and pages asked for. Each block of the pool it owns is freed exactly once, when the value is dropped, and a failure owns nothing. Each protocol interface is held by the caller, installed or destroyed: none twice, none lost.", "quantifier": "every answer of the firmware, number of handles or descriptors at each of the two calls, and history of installs, uninstalls and exchanges", "why_tests_cant": "handle databases and memory maps change between the two calls of a wrapper; leaks and double frees do not show in a single call's result", "anchors": ["sdk/patina/src/boot_services.rs: get_memory_map, locate_handle, locate_handle_buffer, protocols_per_handle, open_protocol_information, start_image, connect_controller, allocate_pages, locate_protocol, handle_protocol, install_protocol_interface, uninstall_protocol_interface, reinstall_protocol_interface", "sdk/patina/src/boot_services/boxed.rs: BootServicesBox", "sdk/patina/src/boot_services/c_ptr.rs: CMutPtr, into_ptr", "sdk/patina/src/boot_services/allocation.rs: AllocType"]}
{"id": "C86", "title": "The global allocator on boot services", "statement": "Memory a program gets from the global allocator is aligned as its layout asks, lies in a block of the pool and overlaps nothing else in use. Whatever the program writes to the memory it holds, it can free it, in any order, and that frees the block it lies in and no other. Once it has freed all, the pool is as before; an allocation changes no byte in use, and one that fails takes nothing.", "quantifier": "every history of allocations, frees and writes, every layout, and every pool that keeps to the UEFI specification", "why_tests_cant": "alignments above eight bytes keep a hidden pointer behind the data; whether it survives depends on the whole history and on where the pool places blocks", "anchors": ["sdk/patina/src/boot_services/global_allocator.rs: BootServicesGlobalAllocator, alloc, dealloc"]}
{"id": "C87", "title": "Cache maintenance and timers of the CPU protocol", "statement": "Flushing a range does the operation asked for to every cache line of the range, and to no other: after a write-back memory holds what the processor saw, all over the range; the processor sees the same as before unless an invalidation was asked for, and then only the range changes. It ends for every range. Timer values are written only on success, and come from a timer.", "quantifier": "every start, length, line length and content of cache and memory", "why_tests_cant": "which lines are missed depends on start, length and line length together; caches do not show in unit tests", "anchors": ["core/patina_internal_cpu/src/cpu/aarch64/cpu.rs: cache_range_operation, data_cache_line_len, flush_data_cache, get_timer_value", "core/patina_internal_cpu/src/cpu/x64/cpu.rs: flush_data_cache, get_timer_value, calculate_timer_period", "patina_dxe_core/src/cpu_arch_protocol.rs: get_timer_value"]}
{"id": "C88", "title": "Where the image to load is read from", "statement": "An image named by a device path is read from a firmware volume, a file system, LoadFile2 (not for boot options) or LoadFile, whichever is first to have it; what is loaded is that file's content, byte for byte, and directories are no files. The names of the path are looked up one after the other. Nothing read from is left open or allocated, and the volume's verdict on authenticity is passed on.", "quantifier": "every tree of directories, path, content and file information, and every answer of the drivers", "why_tests_cant": "drivers are foreign code; leaks and lost verdicts do not show in the content", "anchors": ["patina_dxe_core/src/filesystems.rs: SimpleFile, open, open_volume, get_info, get_size, get_attribute, read", "patina_dxe_core/src/image.rs: get_buffer_by_file_path, get_file_buffer_from_fw, get_file_buffer_from_sfs, get_file_buffer_from_load_protocol"]}
{"id": "C89", "title": "The readable form of HOBs: merged intervals and numbers", "statement": "Merging a list of intervals gives a minimal set of intervals that do not overlap, covering exactly the addresses of the list; what is said of an address (its type and attributes) is what was said before. A number written as text is read back as the same number, and refused if the type read has no room for it.", "quantifier": "every list of intervals in any order and every number", "why_tests_cant": "overlaps depend on the order of the whole list; a few lists do not show the orders that fail", "anchors": ["sdk/patina_pi/src/serializable.rs: Interval, merge_intervals", "sdk/patina_pi/src/serializable/serializable_hob.rs: MemAllocDescriptorSerDe, ResourceDescriptorSerDe", "sdk/patina_pi/src/serializable/hex_format.rs: serialize, deserialize"]}
{"id": "C90", "title": "The debugger's serial line", "statement": "Whatever the debugger reads, writes and looks at, and however the serial device behaves in between, bytes are read in the order they came in, each once; looking at one does not take it; bytes written go out in order, each once, and none is lost in a full queue. Reads end when a byte comes in, writes when the device goes on sending. While the debugger is in, logging is silent, and afterwards its level is as it was.", "quantifier": "every history of calls, every schedule of the device and every depth of its queues", "why_tests_cant": "which flag is up at which access depends on the timing of the device", "anchors": ["core/patina_debugger/src/transport.rs: SerialConnection, LoggingSuspender", "sdk/patina/src/serial/uart.rs: UartPl011"]}
{"id": "C91", "title": "What the serial logger writes", "statement": "A record is written exactly if the filter that applies to its target, or else the maximum level, admits it. In either JSON format a record is an object a JSON reader accepts, with the members the record has. Every record is one line, so that lines tell records apart.", "quantifier": "every record, list of filters and format", "why_tests_cant": "the text of messages is arbitrary; tests use messages without special characters", "anchors": ["sdk/patina/src/log.rs: Format::write", "sdk/patina/src/log/serial_logger.rs: Logger::enabled, Logger::log"]}
{"id": "C92", "title": "Driver bindings and status codes of the SDK", "statement": "A driver binding is in the protocol database, once, exactly while it says it is installed; the driver lives as long as the database has it, and is dropped with its owner otherwise; it can be installed and uninstalled again and again, and nobody else's interfaces are touched. The firmware sees the driver's verdicts. A handler of status codes finds all of the data by the header in front of it.", "quantifier": "every history of calls, every answer of the firmware, and every data", "why_tests_cant": "a driver dropped while the database points to it is a dangling pointer only a later call shows", "anchors": ["sdk/patina/src/driver_binding.rs: UefiDriverBinding, _UefiDriverBinding", "sdk/patina/src/uefi_protocol/status_code.rs: StatusCodeRuntimeProtocol"]}
{"id": "C93", "title": "Section extractors", "statement": "A section with a checksum is extracted exactly if the checksum is that of its content, and gives the content; a compressed one gives what the decompressor makes of its stream, no more and no less. The composite extractor does what the extractor for the section's GUID does. Malformed sections are errors.", "quantifier": "every section, content and header, every checksum function and decompressor", "why_tests_cant": "sections come from flash and may be of any length; tests use well-formed ones", "anchors": ["sdk/patina_ffs_extractors/src/brotli.rs: BrotliSectionExtractor::extract", "sdk/patina_ffs_extractors/src/composite.rs: CompositeSectionExtractor::extract", "sdk/patina_ffs_extractors/src/crc32.rs: Crc32SectionExtractor::extract", "sdk/patina_ffs_extractors/src/lzma.rs: LzmaSectionExtractor::extract"]}
{"id": "C94", "title": "Performance calls and start-up", "statement": "Each call that records performance reaches the measurement protocol once if the configuration enables its kind and not otherwise, with EDK II's identifier, the caller, the controller or event GUID and the string. Recording uses up no memory. When the component is enabled and reports success, the protocol is there. Memory types keep their numbers.", "quantifier": "every configuration mask, sequence of calls and string; every outcome of the services the component uses; every memory type", "why_tests_cant": "the mask, the strings and the failures of services vary freely, and leaks show only over a history", "anchors": ["sdk/patina/src/performance/logging.rs: log_perf_measurement, perf_image_start_begin, perf_driver_binding_support_begin, perf_event, perf_start_ex", "components/patina_performance/src/component/performance.rs: Performance::entry_point", "sdk/patina/src/efi_types.rs: EfiMemoryType::from_efi"]}
{"id": "C95", "title": "On-platform test runner", "statement": "Exactly the tests not marked to be skipped and matching a filter (or any, without filters) are run, once, in order. The run succeeds exactly if each went as expected: passed, or failed as it should with the message expected. Told to fail fast it stops behind the first that did not. Each test is reported, and the log's level is as before.", "quantifier": "every list of tests, set of filters, behaviour of the tests on storage and log level, starting level and storage", "why_tests_cant": "tests are arbitrary programs sharing storage and the log level", "anchors": ["sdk/patina/src/test.rs: TestRunner::with_filter, TestRunner::fail_fast, TestRunner::debug_mode", "sdk/patina/src/test/__private_api.rs: TestCase::should_run, TestCase::run, FunctionTest::run"]}
{"id": "C96", "title": "Pointers given to C", "statement": "What is kept of a pointer handed to C is enough to rebuild it, for every kind of pointer that may be handed over. Handing over frees nothing; got back and dropped, what the pointer owned is freed once. What may be taken for a reference is never null.", "quantifier": "every nesting of raw pointers, references, boxes, the unit, options and values not to be dropped, and every value of these", "why_tests_cant": "the kinds nest without bound; tests use a few of them", "anchors": ["sdk/patina/src/boot_services/c_ptr.rs: CPtr, CMutPtr, CRef, CMutRef, PtrMetadata::into_original_ptr"]}
