# Formal model of patina in Rocq (Coq 8.16.1)

## Layout

* `rocq/theories/Base/` – shared helpers (machine words, byte lists, result type, list lemmas).
* `rocq/theories/<Area>/Model.v` – Gallina transcription of the Rust functions; every definition
  cites the file and lines of `/repo` it models and states every simplification.
* `rocq/theories/<Area>/Spec.v` – small, independent vocabulary used in theorem statements
  (what the English property talks about), not built from the model's helpers.
* `rocq/theories/<Area>/Proofs.v` – invariants and lemmas.
* `rocq/theories/<Area>/Props.v` – only the property theorems: each is closed by `exact lemma`,
  followed by `Print Assumptions`, and next to it an `Example` that shows a concrete, non-trivial
  case meeting its hypotheses.

Conventions: Rust `Result`/`Option` are data; a Rust panic (`assert!`, `unwrap`, index out of bounds,
debug-build arithmetic overflow where it is reachable) is an explicit error value of the model, so "never
panics" is a theorem; loops without a structural measure take fuel and return an explicit
out-of-fuel value that the theorems exclude. Machine integers are `N` (or `Z`) with explicit
`mod 2^64`/bound checks wherever the Rust code can overflow.

## Trusted base

* Coq 8.16.1 kernel (and the OS/OCaml below it). No axioms of our own. What `Print Assumptions`
  reports for each theorem is printed by the `Props.v` files during the build; the expected answer is
  "Closed under the global context" unless listed in "Axioms used" below.
* The transcription from Rust to Gallina is by hand and is trusted; the comments give the lines.
* Not modelled anywhere: CPU instructions, MMU, real interrupts (modelled as nondeterministic
  choice where a property needs it), the Rust compiler, LLVM, the external crates
  (`linked_list_allocator`, `patina_paging`, `goblin`, `scroll`, `crc32fast`, `brotli`, `uuid`, `log`).
  Where the code calls such a crate the model either implements the documented behaviour of the call
  (e.g. little-endian `pread`) or is parameterised by an arbitrary function.

## Axioms used

None so far: every `Print Assumptions` in the build says "Closed under the global context". (A scan of
the loaded libraries also shows the fields of the `Under_rel` module type of the standard library's
`ssr/ssrunder.v`; no theorem depends on them.)

Constants of the `r_efi` crate (memory attribute bits, status codes, event types) are taken from the
UEFI specification because the crate is not in the repository.

## Plan per property

| id | what is modelled | how it is proved |
|----|------------------|------------------|
| C01-C06 | GCD memory blocks as the sorted block sequence held in the tree, with node capacity; every service; `MemoryBlock` transitions function by function | invariant (tiling) by induction over call lists; refinement to a map address -> state; allocation search by induction over blocks |
| C07 | `IoGCD`/`IoBlock` the same way | same technique |
| C08-C10 | pointer-level model of `Storage`/`Node`/`Rbt`/`Bst` (slots with left/right/parent indices, free list) and functional tree | representation predicate, refinement to sorted association list |
| C11 | `SortedSlice` over lists with capacity, binary search | invariant by induction over op lists |
| C12-C15 | `EventDb` as a state machine | invariants by induction over op lists; per-op specifications |
| C16 | `raise_tpl`/`restore_tpl` dispatch loop over the `EventDb` model, callbacks as arbitrary programs (inductive trees of calls) | induction over the callback program / fuel |
| C17 | both TPL mutexes in the same interpreter as C16, with interrupts as an arbitrary schedule | program logic proved by induction over fuel, for all schedules |
| C18-C21, C48 | `ProtocolDb` as a state machine; the services with arbitrary re-entrant callbacks | history-based specification (what the calls and results so far say), invariants by induction over histories |
| C22-C24 | `Opcode::from`, `Depex::eval` etc. over byte lists | structural induction over expressions / byte lists |
| C25 | `align_*` over `N` with explicit bounds | arithmetic |
| C26 | GUID display/parse over character lists | list induction |
| C27-C28 | memory log as raw bytes + atomic counters, writers as small step processes | invariant over all interleavings; round trip |
| C29-C30 | byte-level device paths | induction on node lists |
| C31-C34 | byte-level FFS section/file/volume writer and parser | round trip by list induction; safety for all byte strings; counterexamples where the parser can loop or panic |
| C35 | section copy and relocation fixups over byte lists | framing lemmas on byte updates |
| C36 | configuration table list | refinement to a map |
| C37 | doubly linked list in a heap of link cells | heap invariant by induction |
| C38-C39 | dispatcher queues (`Dispatch/`); images, notifications, loading and security answers as an oracle on the events so far, which may publish and withdraw protocols, bring volumes, schedule, trust and dispatch again; not modelled: reading of volumes (see C31-C34), device paths, memory | trace invariants over every history; termination measure; what is left at the end |
| C40, C54 | connect and disconnect (`Connect/`) over the protocol database of `Protocol/`; drivers, override protocols and security as oracles that see everything so far and may make any database calls; not modelled: the bytes of device paths | the driver calls form passes over a candidate list, by induction on the passes; candidates per source from the database history; termination by candidates left, recursion by a ranking of the handles |
| C41 | HOB list bytes in one readable region (`Hob/`): discover_hobs, HobIter, sizes, attributes_valid; relocate_hobs and Debug output not modelled | induction on the block list, any surrounding memory |
| C42-C43 | all allocators over the GCD model: fixed-size blocks, regions, reserves, pool headers, AllocatePages/FreePages; fallback heap as an arbitrary correct allocator | invariant of every history of calls and of what the callers hold |
| C55, C56 | GetMemoryMap and the key check of ExitBootServices over the memory map and the allocators (`MemMap/`); the CRC by its standard definition; padding bytes as an oracle | descriptors cover what the blocks cover (induction over the merge); CRC linear over GF(2), so a change within 32 bits shows |
| C57, C58, C59 | LoadImage, StartImage, Exit, UnloadImage as a machine over an explicit stack of running image code, on top of the protocol database and its services (`Image/`); reading files, PE loading and the security protocols' answers are inputs of the load | invariant linking the stack, the saved contexts and the image records, over all runs in which running images are not started or unloaded; a weaker one over all runs |
| C60, C61, C62 | the component system (`Comp/`): typed storage with its indices, every parameter type with its access bookkeeping, validation and borrowing, the dispatch loops, HOB parsing, the builder; component bodies are functions from what they hold to a list of effects; types are numbers; not modelled: the procedural macros, `StaticComponent` storage of the boxed value, the driver dispatcher (an oracle for "something was dispatched", see C38) | storage refined to a map by type; invariant over the dispatch history; every left-over component is unready in the last storage |
| C63, C64, C65 | the memory attribute protocol, the page attributes of the component memory service, image and stack protections over the memory map and page table of C53, and the memory attributes table over the memory map of C55 (`Attr/`); section headers as triples of address, size and flags; not modelled: the allocation and publication of the table, log output | per-address effect of the common walk over descriptors, by induction on it; bit-level facts about the masks |
| C66 | the communication buffers, the communication service and the software trigger of patina_mm (`Mm/`); memory is a function from addresses to bytes, buffers are ranges of it, so that clones and overlaps exist; management mode is any function on memory that ends in success, an error or a panic | byte-level frame lemmas; exact characterisation of verify; induction over histories |
| C67 | performance records, their buffer and iterator, the boot performance table (`Perf/{Model,Spec,Proofs,Main,Props}`) on the memory of `Mm/`; the page allocator is two functions | byte-level frame lemmas for writes that fail half-way; invariant over all histories of the table |
| C68 | `create_performance_measurement`, the tables of names and ids, HOB records and fetching from management mode (`Perf/{Measure,MeasureProps}`); management mode is any function from offsets to answers; ticks to nanoseconds is not modelled | relational specification of ids and events written without the code's tables; refinement; induction over pieces |
| C69 | The x86-64 stack trace: images found in memory, function tables, unwind codes, frames (`Trace/`); memory is a total function, of image names only the arithmetic is modelled | specification of images, tables and prologs by the bytes in memory; induction over the prolog for the frame size, over pages and table entries for the function, over the calls for the trace |
| C70 | `fv.rs` services and `CoreExtractor` over `Ffs.Model` volumes in memory: lazy iteration over files, sections with an arbitrary extractor, blocks, the table of protocols, HOBs | for every written volume at any place: `select` picks the n-th stored file (from C33), extraction by induction on the nesting depth, block reads from the bytes in memory; concrete counterexamples on a demo volume |
| C71 | the wrappers of GetVariable, SetVariable, GetNextVariableName and `VariableNameIterator` over a firmware given as a function; the firmware itself is specified in `Var/Spec.v` as a list of variables | case analysis on the two attempts; one step of the iterator finds the next variable (lemma on buffers that hold a name up to its null), then induction over the rest of the store |
| C72 | `debug_image_info_table.rs` over a heap of entries and arrays, each operation as the list of states after its writes | invariant by induction over histories: the used slots point at distinct live entries and there is no other memory; swap-removal is a permutation |
| C73 | `memory.rs` over a memory, a page table and the set of faulting addresses | reading and one-page writing by cases over the scan of pages; what is written of longer ones bounded by 4096 bytes |
| C74 | `breakpoint.rs` slots over the memory access of C73 | invariant by induction over histories: a used slot holds the program's bytes |
| C75 | `arch/x64.rs` registers, packets, entry and exit; the description as a list of fields | fields read back from the packet by position; resumption by induction over failures |
| C76 | debug registers as bits of DR7 and four addresses | refinement to a table of four slots by induction over histories |
| C77 | `monitor.rs`, target description of `dbg_target.rs`, module list and breaks, command table | buffer invariant by induction over writes; fetching by induction over pieces; invariant over requests since the last clear |
| C78 | The x86-64 entry and exit code as a list of instructions over a small machine (stack of words, registers, flags as far as used); the descriptor table | Symbolic execution in the kernel: for every program state, the context holds the registers and the resumed program is the one in the context; refutations |
| C79 | Registration with read and write locks, nested handlers, as an interpreter with fuel | Equivalence with a lock-free big-step reference, by induction both ways; refutations (hang, panic) |
| C80 | Source mapping, enable and configuration words, handler table, acknowledgement and end of interrupts | Simulation by a reference without registers for every history on private sources; refutations for shared sources |
| C81 | AArch64 unwind codes, records and packed words, the function table and the loop of the trace | Induction over prologs (encode, then walk) and over the stack of calls; refutations for the other ways to save the link register, for unknown codes (no end) and cut codes (panic) |
| C82 | The loop over the hand-off blocks, allocation at an address with handles and units, page zero, creating allocators, the buckets, on top of Alloc/ and Gcd/ | What one block does to the map (takes its range or leaves the map alone), then induction over the list; taken memory stays taken through page zero, new allocators and buckets; the histories of C01 for what comes later |
| C83 | `FirmwareVolume::new`, `File::new`, `Section::new`, `lba_info` and both iterators of patina_pi's fw_fs.rs, over bytes; an extractor is any function; taking all items of an iterator is a fuelled function with three endings (done, panic, still running) | A writer given by the layout; round trips by induction over the files and over an inductive relation of nested sections; inversion of `File::new` for arbitrary bytes; loops by induction on the fuel |
| C84 | The AArch64 debugger: register packets, `process_entry`, `process_exit`, `set_single_step`, the loop of `handle_interrupt`, the poke test, `initialize` and the watchpoint slots as DBGWVR/DBGWCR values; MDSCR_EL1 is threaded through | Packets as concatenations of little-endian words; induction over failed sessions, over histories of stops (bit 0 of MDSCR_EL1) and of watchpoint requests (simulation with a table of slots); what the processor watches is a separate specification from the Arm manual |
| C85 | The SDK's wrappers of boot services: pool blocks as a list of live addresses and a list of wild frees; answers of the firmware as functions; interfaces as a ledger (held, installed, destroyed, lost) | Case analysis over the firmware's answers, with a separate specification of a conforming firmware; induction over histories of installs and uninstalls (permutation invariant) |
| C86 | The SDK's global allocator: `alloc`, `dealloc`, `Layout::extend`; memory byte by byte, so that the pointer kept behind the data can be overwritten | Invariant by induction over histories of allocations, frees and arbitrary writes to what is held: each holding has its own block, and its pointer is intact |
| C87 | `FlushDataCache` on AArch64 (the loop over lines, with wrapping and fuel) and x64; `GetTimerValue` | Induction over the loop: what is visited, and that no two neighbours are a line apart; a specification of a cache (memory and cached values) and of what an operation on a line does |
| C88 | `SimpleFile`, the walk over the names of a path, the two-call protocol of LoadFile, ReadSection, and the order of the ways | Drivers as functions; specification of conforming files and of looking up names; induction over the path; case analysis over the ways |
| C89 | `merge_intervals` with the two orders used, and hexadecimal text | Permutation and sortedness of the sort; induction over the merge with what is covered, and with what is done ending before the last; induction over digits |
| C90 | `SerialConnection` on the PL011 driver, with the device stepping between any two accesses; `LoggingSuspender` scopes | Specification of the device (queues, flags); invariant over histories; induction over the schedule for progress; nested induction over scopes |
| C91 | `Format::write` and `enabled` of the serial logger | Specification of a JSON reader; reading back; computation for the format that is never JSON; splitting the list of filters |
| C92 | `UefiDriverBinding` with its owner, and the data of `report_status_code_with_data` | Specification of a protocol database; invariant over histories of calls; the header read back from the bytes |
| C93 | The extractors for Brotli, CRC32 and LZMA sections and the composite one; checksum and decompressors as arbitrary functions | Case analysis; equivalence for the checksum; layout of the Brotli header as specification |
| C94 | The functions that record performance, as calls of the protocol and strings left allocated; the component's start with services that may fail; memory types | Case analysis; induction over sequences of calls; table of EDK II's identifiers as specification |
| C95 | The test runner over tests as arbitrary functions of log level and storage | Induction over the list of tests; selection, expectation and report as specifications of their own |
| C96 | Pointer types as a grammar, their values and addresses; getting back the original where Rust promises the layout | Induction over types; "some function gets it back" as specification |
| C44 | `stall` arithmetic | arithmetic; likely refuted (ticks are rounded down) |
| C45 | `exit_boot_services` as a state machine | induction over call lists |
| C50-C51 | the 128-byte buffered writer, `log_write`, filters, parser; `open_log` and the iterator on arbitrary bytes | induction over pieces and entries; termination measure |
| C53 | `SpinLockedGcd` over the GCD model: page table as a partial map from page to attributes with a list of injected faults, `init_paging`, all services, `debug_assert` as alarm (release) or panic (debug) | invariant "page table = what the map says" by induction over histories and over the attribute loop |
| C52 | the decoded hand-off blocks, `init_gcd`, `add_hob_resource_descriptors_to_gcd`, capability table, on top of the GCD, page-table and I/O models (`Boot/`) | per-address story by induction over the list; completeness by a room argument |
| C49 | `set_watchdog_timer`, `calculate_crc32` | arithmetic, case analysis |

A property that turns out false of the faithful model is kept with a `_refuted` theorem giving the
witness, and the strongest true variant is proved as `_partial`; both are recorded under "Findings".

## Findings

Each finding is a machine-checked counterexample (a `*_refuted` theorem) unless marked "(noted)".

Memory-space map (`Gcd/`)
* A free can report an error although the range is free afterwards: the attribute step runs after the
  free (`memory_call_failure_atomic_refuted_free`, release build).
* The first `add_memory_space` can report an error although the memory exists afterwards
  (`memory_call_failure_atomic_refuted_first_add`).
* Bottom-up search with a bound: the page-0 skip tests `addr + len >= max` instead of `>`, so a run that
  ends exactly at the bound is missed (`bottom_up_bound_refuted`).
* A debug build panics on ranges whose end overflows and on a block at 0 that is shorter than the
  first aligned non-zero page (`gcd_debug_panic_refuted`).
* (noted) `remove_memory_space` keeps attributes and owner, so removed fragments need not re-merge;
  allocate accepts lengths that are not page multiples, which free then rejects.

Memory map and page table (`Gcd/Spin*.v`; the `patina_paging` crate is a map from page numbers to attributes that may
fail at any call; the pages it allocates for itself and `activate_compatibility_mode` are not modelled)
* A request the map refuses is only logged: the page table is changed and success reported
  (`c53_refuted_unsupported_attributes`, release; a debug build asserts).
* Attributes without a mapping bit replace the recorded ones, read protection included, and leave the page table alone
  (`c53_refuted_plain_attributes`).
* Freeing with ownership preserved never unmaps (`c53_refuted_free_preserving`); freeing while the map is locked reports
  success, frees nothing and unmaps the pages (`c53_refuted_free_locked`); removing part of a page leaves it mapped
  (`c53_refuted_remove`); in compatibility mode allocated memory without recorded cacheability is not mapped
  (`c53_refuted_compatibility`).
* SetMemorySpaceAttributes on a range that ends past the address space never returns in a release build
  (`c53_set_attributes_ends_refuted`); one that wraps past 2^64 is reported as done (`c53_wrapping_length_refuted`).
* Debug: read-protecting free memory again, or booting with unallocated memory at page 0, panics
  (`c53_protect_again_panics_refuted`, `c53_boot_page_0_panics_refuted`).

Boot (`Boot/`)
* A descriptor that begins inside the free memory of the hand-off table and ends behind it is dropped whole: the part
  behind it reaches no map (`C52_tail_lost_refuted`; `take_while` stops at the missing first piece).
* A V2 descriptor of device or reserved memory that leaves the caching open stops the machine
  (`C52_open_caching_refuted`).
* Read-protected memory must declare the read-only capability, not the read-protect one (`C52_read_protected_refuted`).
* More reliable memory of a V2 descriptor is entered without read protection (`C52_reliable_memory_open_refuted`).

Dependency expressions (`Depex/`)
* An expression with NOT can become false after having been true (`depex_stays_true_with_not_refuted`).
* BEFORE/AFTER followed by further opcodes is still treated as an association
  (`depex_association_strict_refuted`).

Alignment (`Align/`)
* `align_range` computes `base + length` unchecked (`align_range_total_refuted`).

Sorted slice (`Sslice/`)
* `search_with_key` indexes out of bounds when the key is above the last element
  (`sorted_slice_search_with_key_refuted`).

Events (`Event/`)
* SetTimer adds the requested delay to the system time unchecked: a huge relative delay fires on the
  next tick in a release build (`relative_timer_fires_early_refuted`) and panics with overflow checks.
* Re-arming a periodic timer has the same overflow, inside the timer interrupt
  (`timer_tick_no_panic_refuted`).
* CloseEvent reports success for any identifier of 2^63 or more (`close_unknown_event_refuted`).
* (noted) The ordering of pending notifications is not a total order (two entries of one event compare
  equal regardless of tag), so the B-tree may hold two entries for a notify-wait event.  The model leaves
  the outcome of that lookup to an oracle and the theorems hold for every oracle.

Priority levels and TPL mutexes (`Tpl/`; interrupts are a schedule choosing at every opportunity whether a
timer interrupt is taken, notification functions are arbitrary programs)
* A timer interrupt taken after RestoreTPL found the queue empty but before it clears
  EVENT_NOTIFIES_IN_PROGRESS queues a notification that nobody dispatches: RestoreTPL returns with it pending
  above the new level (`restore_tpl_drains_refuted`).
* An event closed, by a higher-priority function, between the moment its notification is taken from the queue and
  the call of its function still has the function called (`closed_event_callback_refuted`), or RestoreTPL panics on
  `get_event_type(..).unwrap()` (`restore_tpl_no_panic_refuted`).
* The SDK `TplMutex` guard restores the TPL before releasing the lock flag; a notification dispatched by that restore
  that locks the same mutex panics (`sdk_mutex_drop_reentrant_refuted`).  The core's mutex releases first.
* Dropping two guards out of order panics (`drop_order_panics_refuted`); `try_lock` above the mutex's level panics
  instead of returning an error (`try_lock_high_tpl_refuted`).

Protocols (`Protocol/`; notification functions, driver Start/Stop and the device path comparison are arbitrary
oracles that may make any database calls; handle-value search is fuelled and reports "has not returned")
* Uninstalling several protocols is not atomic: if the handle's last protocol was already removed when a later one
  fails, the handle is destroyed and the rollback restores nothing (`protocol_uninstall_multiple_atomic_refuted`).
* LocateProtocol with a registration key panics if the handle has lost the protocol meanwhile
  (`protocol_svc_locate_protocol_no_panic_refuted`).
* LocateHandle by registration key consumes the handle before it reports BUFFER_TOO_SMALL
  (`protocol_locate_by_key_retry_refuted`).
* A registration remembers handles, not installations: uninstall + reinstall on one handle is delivered once
  (`protocol_each_install_delivered_refuted`), and a handle is delivered although the protocol is gone from it
  (`protocol_delivered_handle_has_protocol_refuted`).
* CloseProtocol drops every open of the agent/controller pair (`protocol_close_one_open_refuted`).
* Opens of an agent whose handle was destroyed can never be closed; even a HandleProtocol lookup by an unloaded image
  makes a later uninstall fail with ACCESS_DENIED (`protocol_close_dead_agent_refuted`,
  `protocol_svc_uninstall_dead_agent_refuted`).
* A failing UninstallProtocolInterface has already dropped the informational opens
  (`protocol_svc_uninstall_failure_keeps_opens_refuted`).

Boot services (`Config/`, `Misc/`, `Runtime/`, `Guid/`)
* Stall rounds the tick count down, so it may return up to one tick early, at once for a short request
  (`stall_at_least_refuted`), and a zero tick period panics (`stall_zero_period_panics`).
* ExitBootServices sets its "already called" flag after signalling the before-exit groups: a notification function
  that calls it again gets both groups signalled twice (`exit_boot_services_once_reentrant_refuted`).
* A failed ExitBootServices leaves the timer stopped (`exit_boot_services_failure_stops_timer_refuted`).
* After a successful ExitBootServices, another call with a stale key unlocks memory again
  (`exit_boot_services_stays_locked_refuted`).

Device paths (`DevPath/`)
* `device_path_node_count`, copy and concatenation stop at the first end node of any kind: a multi-instance path is
  cut and the copy has no end-entire terminator (`c29_copy_multi_instance_refuted`).
* A node with length field 0 makes the walk go on forever (`c29_zero_length_hangs`).
* SDK `starts_with` compares only the first instance of its argument (`c30_starts_with_multi_refuted`).
* A node of 65536 bytes or more is written with a truncated length and swallowed on reading (`c30_long_node_lost`).
* `MemoryMapped` and `Bmc` nodes report the padded Rust size: a debug build panics on append, a release build writes
  trailing bytes no other reader expects (`c30_typed_padded`, `c30_typed_interop_refuted`).
* `Bios` nodes always claim 36 bytes (`c30_bios_debug`, `c30_bios_release_refuted`).
* `eisa_id` puts the compressed vendor name in the high half: PNP0A03 becomes 0x41D00A03 instead of 0x0A0341D0
  (`c30_eisa_value`, `c30_pci_root_hid_refuted`).

Memory log (`Log/`; writers are step machines, loads may return any earlier value of the counter, slot bytes become
visible in any order)
* A message of 65536 bytes or more is accepted but its length field is truncated, so the log reads back garbage
  (`c28_long_message_refuted`).
* Appending to a log opened read-only advances the shared counter and then fails with ACCESS_DENIED: the log gains an
  entry nobody wrote (`c28_read_only_add_refuted`).
* Entries carry a signature that the reader never checks: while a slot is reserved but not yet written a reader sees a
  phantom entry (`c27_phantom_refuted`).
* A debug build panics on a header whose buffer offset and size add up past 2^32 (`c51_debug_panic_refuted`).
* The parser divides by zero when the header's timer frequency is between 1 and 999 Hz (`c50_time_refuted`).

Hand-off blocks (`Hob/`)
* The HOB iterator turns a version 2 resource descriptor into a reference to the address spelled by the block's own
  header, 0x38000D for a zero reserved field (`c41_iter_v2`, `c41_iter_refuted`).
* `HobList::size` counts two bytes for a block of unknown type (`c41_list_size_refuted`), and such a block's header is
  reported with length 8 (`c41_misc_header_refuted`); iterating from it dereferences its type number
  (`c41_misc_iter_refuted`).
* A GUID block shorter than 24 bytes gives a slice of nearly 2^64 bytes in a release build (`c41_short_guid_refuted`);
  a zero-length block of unknown type makes discovery, sizing and iteration run forever (`c41_zero_length_refuted`).
* `attributes_valid` checks READ_PROTECTED against READ_ONLY_PROTECTABLE instead of READ_PROTECTABLE
  (`c41_attributes_valid_refuted`).
* Converting a version 1 resource descriptor to version 2 keeps length 48 in a 56-byte block
  (`c41_v2_from_v1_refuted`).

Trees (`Rbt/`)
* Deleting breaks the colouring: after adding 2, 1, 3 and deleting 1 two paths have different numbers of black nodes
  (`C09_delete_breaks_colours_refuted`). A leaf is fixed up whatever its colour, and a node with two children whose
  successor is a black leaf is removed with no fixup at all. The height bound goes with it: 16 elements can stand 11
  high (`C09_delete_breaks_height_refuted`).
* Growing after a delete loses elements: only the first `len` slots are copied and the new free list is laid over the
  copied ones (`C10_growing_after_delete_refuted`). Growing a full tree into a buffer of its own size panics
  (`C10_exact_fit_refuted`), so does `with_capacity` on a buffer that holds no node.
* The last node of a fresh buffer keeps whatever it had as its right link. In memory that was not zeroed, filling the
  tree and deleting an element writes through that link (`C08_dirty_buffer_refuted`).
* Adding a key that is present takes a slot and never gives it back; `len` counts it (`C08_duplicate_add_uses_a_slot`).
* `delete_with_idx`, `get_with_idx` and `next_idx`/`prev_idx` accept indices of free slots. The theorems ask for live
  ones.

### Connecting drivers (`Connect/`)

- A driver image the caller lists twice is asked, and started, twice: each
  source is freed only of what earlier sources offered, not of its own
  duplicates (`C40_named_twice_refuted`).
- Two handles that hold each other open BY_CHILD_CONTROLLER send a recursive
  ConnectController into endless recursion, hence a stack overflow
  (`C40_child_cycle_refuted`). With children ranked below their parents it
  returns (`C40_recursion_terminates`).
- An override protocol installed with a null interface panics
  (`C40_null_override_refuted`).
- Of several drivers with the same family override version only the youngest
  handle is a family candidate (`family_source`); the others come last.
- DisconnectController with a child named stops every other driver of the
  controller that has no children, completely: no children left to stop counts
  as "the named child was the only one" (`C54_named_child_refuted`). A handle
  that is nobody's child reports success for a driver with other children,
  and nothing is called (`C54_no_such_child_refuted`).

### Dispatcher (`Dispatch/`)

- `executing` is tested and never set. A dispatch asked for by a running image
  is not refused with ALREADY_STARTED but starts drivers inside the first
  (`C39_reentrant_refuted`). If an event notification asks for one, each pass
  notifies again and the recursion has no end
  (`C39_dispatching_notification_refuted`).
- A driver AFTER (or BEFORE) another that fails security goes back to the
  pending list and from there, in the next pass, to the list of drivers that
  wait for their target. A trust request only looks at the pending list, and
  the target does not run again: the request fails and the driver never runs
  (`C38_trusting_associated_refuted`).
- If A is AFTER B and B is AFTER C, A never runs: only drivers with their own
  dependency pull in others (`C39_chain_refuted`).
- A trust request for a driver not loaded yet is accepted and has no effect:
  loading overwrites the status.
- A file of a volume that cannot be read ends in a panic (`expect`).

### Firmware file system (`Ffs/`)

- A file with the data-checksum attribute is written with a check that makes
  check plus content sum to zero. The reader wants the content alone to sum to
  zero and ignores the check. Such a file is refused right after it was
  written, and a volume refuses to hold it (`C32_data_checksum_refuted`,
  `C33_data_checksum_refuted`).
- A file whose size field is zero is accepted, and listing the files of its
  volume never ends (`C34_zero_size_file_refuted`).
- A file whose size is below its header's length panics when it is read (with
  data checksum) or when its content is asked for
  (`C34_short_file_refuted`, `C34_short_content_refuted`).
- A GUID-defined section whose data offset lies inside its own header panics,
  and so does, in a debug build, a section shorter than its header
  (`C34_overlapping_section_refuted`, `C34_short_section_refuted`).
- An extended volume header that gives a size below 20 panics when it is asked
  for; a volume whose extended header ends in the last, partial eight bytes
  panics when its files are listed (`C34_short_ext_header_refuted`,
  `C34_files_after_the_end_refuted`).
- A section of exactly 0xFFFFFF bytes is written with the size field that
  means "see the extended header" and cannot be read
  (`C31_length_0xFFFFFF_refuted`). A small section with an extended header is
  read, but its length is then computed without the extension, so a reader
  goes on inside it (`C31_extended_small_refuted`).
- A file that asks for 16 MiB alignment makes the volume writer panic; an
  empty block map is written and cannot be read; bytes after the volume's
  length are read as files (`C33_alignment_16M_refuted`,
  `C33_empty_block_map_refuted`, `C33_trailing_bytes_refuted`).
- Turning the large-file bit of a file can go unnoticed
  (`C32_large_bit_damage_refuted`).
- The address of a block in the second and later regions of a block map is
  wrong (`C33_lba_second_region_refuted`).

Not modelled: the section composers and extractors (compression, CRC32), which
are arguments of `compose` and `extract`. Memory is a list of bytes; reads
outside it are explicit results.

### Loading and relocating images (`Pe/`)

- A relocation entry of any kind but 0, 3 and 10 panics (`todo!()`,
  `C35_unknown_kind_refuted`).
- The record of earlier fixups is meant to leave alone what the image changed
  since. Each value is written before it is compared with the record, so the
  record makes no difference to the image (`C35_record_makes_no_difference`,
  `C35_changed_value_refuted`).
- The record holds zero for a 32-bit place (`C35_short_record_refuted`), and an
  image loaded at its preferred address gets an empty record although it has
  places (`C35_preferred_address_record_refuted`).
- Only the first named entry of a resource directory is ever looked at: the
  loop over the named entries does not advance (`C35_second_name_refuted`).
  Entry counts that sum to 65536 or more panic in a debug build
  (`C35_resource_debug_panic_refuted`).
- The name string of a resource is compared from one byte after its length
  field's first byte; L"HII" is matched all the same because of the zero bytes
  between the letters.

Not modelled: parsing of the headers (goblin), so `UefiPeInfo` is given. What
an unsuccessful load or relocation leaves in the buffer is not modelled.

### Pool and page allocators (`Alloc/`)

- A double free of a small buffer can be accepted, and the same memory handed
  to two callers (`double_free_rejected_refuted`). The free list writes the
  address of the next free block over the first word of the header. The header
  struct has no fixed layout. When the compiler puts signature and type first,
  an address whose low half reads as the signature revives the header.
- AllocatePool of a size near `isize::MAX` panics instead of returning
  OUT_OF_RESOURCES (`huge_pool_request_fails_refuted`).
- AllocatePages multiplies pages by 4096 without a check. A release build asked
  for 2^52 + 1 pages returns one page (`allocated_pages_enough_refuted`).
- AllocatePages at address 0 takes the page from the map, reports
  OUT_OF_RESOURCES and counts nothing. Freeing it then takes another page off
  the count (`page_zero_fails_without_effect_refuted`).
- FreePages frees memory of the pool under live buffers: pool memory has the
  same owner as page runs (`free_pages_spares_pool_refuted`).
- AllocatePages at a fixed address may take memory another memory type has
  reserved (`reserve_is_kept_refuted`).

What histories assume of callers is `polite` in `Alloc/Spec.v`: give back only
what one holds; do not write over the header of a live buffer; a fixed address
is not taken from another type's reserve; other users of the map leave the
allocators' memory alone; and when the map fails half way (finding C03) the
history ends. The heap of linked_list_allocator is its contract: any place that
is free, inside and aligned. Locks, the memory attributes table and the call
counters are not modelled.

### The memory map (`MemMap/`)

- Memory allocated in the memory space by an image handle that is not one of
  the allocators is reported as conventional memory, which an operating system
  loader may overwrite (`allocated_memory_not_free_refuted`). The map's own storage escapes this only
  because it is allocated under the handle of the boot services data allocator.
- Memory added at an address off a page boundary is left out of the map whole,
  not just its partial pages (`all_memory_reported_refuted`). AddMemorySpace
  accepts such ranges.
- The map key is a checksum of the bytes of the descriptors including four bytes
  of padding in each that nothing writes. The same map can have two keys
  (`map_key_of_same_map_refuted`).
- A stale key can be accepted: two reachable maps with the same key are
  exhibited, one with 4 pages at 0x3FFD000 and one with 33 pages at 0x35E5000
  (`stale_map_key_refused_refuted`).

### Images (`Image/`)

- StartImage of an image that was started already returns INVALID_PARAMETER and
  then unloads that image, even when it is running
  (`start_image_of_running_image_refuted`), has succeeded and is resident
  (`start_image_twice_refuted`; the exit data of the first start is reported
  again), or is the DXE core itself (`start_image_of_core_refuted`).
- An image unloaded while it runs leaves its saved context on the stack; when
  the image that started it exits, the wrong, already freed coroutine is resumed
  (`image_unloaded_while_running_refuted`).
- An unload function that unloads its own image makes the core panic on
  `private_image_data.remove(..).unwrap()` (`image_nested_unload_refuted`).
- Unloading leaves the device path protocol installed (the uninstall names the
  caller's path, the installed interface is a copy) and the HII package list
  protocol pointing into freed memory (`unload_leaves_protocols_refuted`).
- The verdict of the security protocols is only reported: an image denied with
  ACCESS_DENIED is loaded and can be started (`denied_image_runs_refuted`).
- LoadImage that fails after installing the loaded image protocol leaves that
  protocol, its handle and the debug table entry
  (`load_image_late_failure_refuted`).
- LoadImage panics when Security2 accepts a file from a firmware volume and the
  Security protocol is not installed (`load_image_no_panic_refuted`).

The coroutine library is its contract: resuming a suspended coroutine continues
it, and dropping its frames forgets everything above. Code run by protocol
notifications may call the database but not the image services.

### Components (`Comp/`)

- A tuple used as one parameter is not validated: a missing service in it is a
  panic instead of a wait (`tuple_parameter_not_validated_refuted`), and a
  configuration in it is handed out before the component that may still change
  it has run (`tuple_configuration_unlocked_refuted`).
- `with_component` of a component with `ConfigMut<T>` followed by `with_config`
  of T locks the configuration again and the component never runs; in the other
  order it does (`config_mut_order_refuted`). `Commands::add_config` does the
  same (`config_mut_relocked_by_command_refuted`).
- `Commands`, `Hob<T>` and `Service<T>` beside `&mut Storage` are accepted,
  although they point into the same storage
  (`aliasing_parameters_accepted_refuted`). Release builds accept every
  combination and panic when the component runs
  (`release_conflict_panics_refuted`).
- A component that returns an error panics a debug build
  (`failing_component_panics_refuted`).
- Commands queued by the last component to run are dropped
  (`last_commands_lost_refuted`).

### Memory protection (`Attr/`)

- ClearMemoryAttributes that leaves neither a cacheability nor an access
  attribute (an I/O range with execute protection only) reports success and
  changes the map, but the page stays mapped as it was
  (`c63_clear_ignored_refuted`); the same for the clean-up of runtime images at
  ExitBootServices (`c64_fixup_refuted`).
- In a release build SetMemoryAttributes over a range that is no memory reports
  success, leaves the map and maps the pages: errors of the map are only logged
  (`c63_refused_by_the_map_refuted`); errors of the page table are returned
  (`c63_refused_by_the_page_table`).
- Set and Clear never return for a range that starts at the end of the address
  space, in either build (`c63_past_the_end_hangs_refuted`).
- GetMemoryAttributes answers NO_MAPPING for any range that is not exactly a
  longest stretch in one state, even for the range just set
  (`c63_get_after_set_refuted`); the page attributes of the component memory
  service call pages with equal attributes inconsistent when they differ in
  owner or capabilities (`c63_page_get_refuted`).
- `get_page_attributes` may answer ReadWriteExecute and WriteProtect, which
  `set_page_attributes` refuses (`c63_page_set_refused`).
- A section without the code and readable flags is left writable whether or not
  its write flag is set (`c64_unreadable_section_writable_refuted`).
- Runtime code without protection is reported read-only and not executable in
  the memory attributes table (`c65_sound`).

### Management mode (`Mm/`)

- An answer is as long as the request or it is refused: a handler that sets
  another message length in the header, as the protocol asks, makes
  `communicate` fail with InvalidResponse (`c66_answer_of_other_length_refuted`).
- The configuration keeps a clone of each buffer; a clone cannot read what the
  service wrote (`c66_clone_refuted`). Nothing prevents two buffers in the same
  memory (`c66_overlap_refuted`).
- The command port, which enters management mode, is written before the data
  port; SMC ports panic (`c66_trigger`).
- Of two buffers with one id only the first is ever used (`c66_sent`).

### Performance (`Perf/`)

- A record longer than 255 bytes (a name of 221 bytes or more): before
  publication a debug build panics, a release build returns ABORTED but leaves
  255 bytes behind, so reading the records panics (`c67_too_long_refuted`,
  `c68_long_name_refuted`); after publication success is reported, the length
  byte wraps and the table cannot be read (`c68_long_name_published_refuted`).
- Publishing twice moves the address to a table without records in a release
  build (`c67_second_report_refuted`).
- A record whose last value is empty (a generic record without data) needs one
  byte more than it has (`fits_in` in `Perf/Spec.v`).
- Clearing the last hex digit of a start id can turn it into an id with another
  meaning; identifiers are cut to sixteen bits (`c68_adjusted_refuted`).
- A null caller is read through for ids whose caller is a GUID
  (`c68_null_refuted`).
- A HOB that states more bytes than it has, or bytes that are no records, panic
  (`c68_hob_refuted`, `c67_iterate`); management mode can make the fetching
  endless or panic (`c68_fetch_hangs_refuted`, `c68_fetch_panics_refuted`).

### Stack traces (`Trace/`)

- Saves of XMM registers: the offset that follows the code is read as another
  code. With a slot number below 256 it counts as a push, so the return address
  is taken from eight bytes too far up (`c69_xmm_refuted`,
  `c69_xmm_caller_refuted`); with others the trace panics
  (`c69_xmm_panic_refuted`).
- The end of a function is taken as part of it, so the first instruction of the
  next function is given to the one before (`c69_boundary_refuted`).
- Unwind information that ends where the image ends is refused
  (`c69_exact_fit_refuted`).
- A page that starts with "MZ" by chance can end the search with an error
  although an image lies below (`c69_false_header_refuted`); an address beyond
  every image is given to the image before it (`c69_outside_refuted`).
- A table of functions that does not lie in the image is a panic
  (`c69_table_panic_refuted`); a debug record of 1 to 23 bytes underflows
  (`no_short_record` in `Trace/Spec.v` excludes it).

### Firmware volume services (`FwVol/`)

Not modelled: the lock, the protocol database (installing always succeeds), Write, EraseBlocks and SetAttributes (they return UNSUPPORTED), the decompression algorithm itself (a parameter). "For large enough fuel" (`eventually`) stands for "the loop ends".

- **GetBlockSize gives the offset of the block for its size, and the size for the number of blocks** (`c70_block_size_refuted`): the triple of `lba_info` is (offset, size, remaining), but is taken apart as (size, remaining, _).  For block 0 the size reported is 0.
- **ReadSection panics if the buffer is longer than the section** (`c70_section_long_buffer_refuted`): it copies `section_data[0..buffer length]`.
- A section below two encapsulations is not found, though the extractor opens both (`c70_nested_refuted`): `sections()` goes down one level only.
- GetNextFile counts the header into the size, ReadFile does not (`c70_sizes_refuted`).
- ReadFile decides by the size, not by the pointer, whether to allocate (`c70_allocation_refuted`).
- Blocks of a second region are read from the wrong place, possibly outside the volume (`c70_second_region_refuted`).
- Read with an offset behind the block reports BUFFER_TOO_SMALL with a size of almost 2^64; a checked build panics (`c70_offset_refuted`).
- One bad HOB hides all volumes behind it (`c70_bad_hob_refuted`).

### Variable services (`Var/`)

The firmware is a specification (`uefi_get`, `uefi_set`, `uefi_next`) after section 8.2 of the UEFI specification. Not modelled: null entries in the table of services, QueryVariableInfo, a variable that changes between the two attempts of one read.

- **GetNextVariableName is told the size of the name in characters, not in bytes** (runtime_services.rs:383). A firmware that refuses a name that does not end within the size, as the specification demands, refuses the first step of every enumeration (`c71_walk_strict_refuted`) and every step from a variable (`c71_next_strict_refuted`). The enumeration is right over a firmware without that check (`c71_walk_partial`): the size it asks for is then taken as characters, so the buffer is twice as long as needed.
- **A size hint above the size of the variable gives data followed by zero bytes** (`c71_get_hint_refuted`): the buffer is not cut to the size that the firmware reports.
- The name that `get_next_variable_name` returns has remains of the previous name behind its null (`c71_tail_refuted`).
- A firmware that asks for a smaller buffer than it was given is a panic (`assert!`, also in release builds).

### Debug image table (`DbgImg/`)

- The last entry takes the place of a removed one, so the order of loading is lost (`c72_order_refuted`).
- A removal that finds nothing reports a modification (`c72_modified_refuted`).
- While the table grows, the header points at freed memory until its pointer is updated; the update bit is set at that time (`c72_demo_dangling`).
- Not modelled, but seen: `EfiSystemTablePointer` has no `repr(C)`, and its checksum covers four bytes of padding that are never written.

### Debugger (`Debugger/`)

The program is stopped while the debugger runs, so there is no other writer. The transport and the GDB protocol itself (the `gdbstub` crate) are not modelled: its calls of the target are. Page attributes, larger mappings and faults are parameters (`hw`, `env`). The AArch64 registers and watchpoints are not modelled.

- **A write over a page boundary goes to the wrong place** (`c73_write_pages_refuted`, memory.rs:79): each page's part is written at the start address, over the part before; nothing further than 4096 bytes from the address is ever written (`c73_write_beyond_refuted`), yet success is reported.
- The last seven bytes in front of an unmapped page cannot be read (`c73_read_last_refuted`): the test load takes eight bytes.
- A read of no bytes underflows (`c73_read_empty_refuted`); a write to a read-only page in a larger mapping panics (`c73_write_large_refuted`); a write that ends at 2^64 panics, or in a release build is reported and not done (`c73_write_top_refuted`).
- **A breakpoint set twice and removed twice stays in the program** (`c74_twice_refuted`), and the first removal takes the instruction away (`c74_twice_lost_refuted`).
- **The register description gives segment registers 64 bits and names cr8; the packet has 32 bits and no cr8** (`c75_read_refuted`). The client shows other registers in their place. The reader of packets follows the description, so a client that changes any register and sends all of them back replaces CR0 by CR4 and clears CR2 to CR4 (`c75_write_back_refuted`).
- Register number 28 names a control register that does not exist, and the floating-point indices are off (`c75_ids_refuted`).
- After a failure of the protocol at a breakpoint the instruction pointer is stepped back again (`c75_restart_refuted`).
- **The DR7 length codes for four and eight bytes are exchanged** (`c76_eight_refuted`, `c76_four_refuted`; Intel SDM volume 3, 18.2.4: 10b is eight bytes, 11b is four).
- Unaligned watches are accepted and not watched (`c76_unaligned_refuted`); a second watch on one address is accepted and dropped (`c76_second_refuted`); a read watch also stops at writes (`c76_read_refuted`).
- A request for a piece of the description whose end is beyond 2^64 panics (`c77_long_refuted`); `mod list 0` shows one module (`c77_list_zero_refuted`); ".EFI" in capitals is not taken off a name (`c77_suffix_refuted`).

### Exceptions (`Exc/`)

- **Vectors from 64 on can be taken for ones with an error code**: `shl rax, cl` counts modulo 64, so 72, 74 to 78, 81, 85, 93, 94 and those 64 and 128 above have their stack frame misread, and `fxsave` faults before any handler is called (`c78_alias_refuted`).
- The descriptor table gives vector 21 (#CP, with an error code) the stub of 19 (without), which faults; vector 18 (machine check) has no gate (`c78_gates_refuted`).
- After an exception CR4 has OSFXSR and DE set, whatever it was (`c78_cr4_refuted`).
- **A handler that registers or removes a handler for its own exception type never returns** (`c79_self_refuted`): the dispatcher holds the read lock while it runs. An exception that comes while a handler for its type is being registered panics (`c79_interrupted_refuted`).
- **A shared interrupt source is mapped to the interrupt 32 places on** (gic_manager.rs:128 adds PPI_COUNT where IntId::spi wants the number of the SPI): registering source n succeeds, its interrupt never comes, and interrupt n + 32, now enabled, panics (`c80_shared_refuted`). The state of an enabled shared source reads as disabled (`c80_state_refuted`).
- A failed registration leaves the handler registered (`c80_failed_refuted`); the last 32 sources cannot be registered (`c80_last_refuted`); interrupt `num_spis` can be enabled but is never ended (`c80_end_refuted`).
- The trigger type is read from the wrong bit, and with level and edge exchanged (`c80_trigger_refuted`).
- A hardware interrupt handler that registers panics: the table of handlers is locked while it runs (`c80_reentrant_refuted`).
- Not modelled: aarch64/interrupt_manager.rs:111-113, which writes vbar_el1 at EL3 and vbar_el3 at EL1.

### AArch64 stack traces (`Trace/Arm*`)

- **The usual frame, `stp fp, lr, [sp, #-n]!`, is followed wrongly**: the link register is looked for `n` bytes too far up, in the caller's frame (unwind.rs:457-458 adds the size before it takes the offset; the code describes the instruction before the stack pointer moved; `c81_fplrx_refuted`). The trace is right only for frames made with `sub sp` and `stp fp, lr, [sp, #k]`.
- `str lr`, `stp xN, lr` and the register pairs that include x30 are not noticed as saves of the link register: it is taken from the top of the stack (`c81_lr_unnoticed_refuted`); so it is for leaf functions (`c81_leaf_refuted`) and packed functions without a chain (`c81_packed_refuted`).
- A pair of vector registers saved with a change of the stack pointer is left out of the frame (`c81_vector_pair_refuted`), a single one with an odd number counts 256 bytes too many (`c81_vector_refuted`).
- **A byte 0xDF or 0xF0 to 0xF7 among the codes makes the trace loop forever** (`c81_hang_refuted`); codes cut off at the end are a panic (`c81_truncated_refuted`).
- As on x86-64, the end of a function is taken as part of it (`c81_boundary_refuted`).

### Pre-DXE allocations (`PreDxe/`)

- **A block is reserved whole or not at all, and a failure is only logged.** A block that crosses from one descriptor to the next (`crossing_block_refuted`), that overlaps a block before it (`overlapping_blocks_refuted`), that does not start and end at a page (`part_page_block_refuted`) or, on AArch64, runtime, reserved or ACPI NVS memory that does not start at a multiple of 64 KiB (`half_unit_block_refuted`) stays free, and the next AllocatePages returns it.
- **The first block of a memory type without a static allocator makes the core allocate from its own heap before the remaining blocks are reserved** (allocator.rs:287-328 within the loop of 785); the heap grows from the top of memory and may take what a later block describes (`own_heap_in_the_way_refuted`).
- Page zero is taken although the call for it always reports that resources ran out (line 979 logs a failure on every boot; see also `page_zero_fails_without_effect_refuted`).
- Modelled from decoded blocks; the memory protections `core_allocate_pages` applies are those of C53.

### The PI crate's volume reader (`PiFs/`)

- **A file with the checksum attribute and a right checksum is refused** unless its content alone sums to zero: the check byte is left out of the sum (fw_fs.rs:488-492, `pi_checksum_refuted`).
- **A section that is longer than what is there, or shorter than its header, panics** (lines 703-758 slice without a check, `pi_section_length_refuted`).
- **A section of a type from 0xC0 on has as data its header, its content and everything after it** (line 754, `pi_vendor_section_refuted`); one of size zero makes the iterator loop for ever (`pi_vendor_section_loop_refuted`).
- **A file whose size is less than its header is accepted**: its content panics (`pi_short_file_refuted`), and one of size zero is reported for ever (`pi_empty_file_loop_refuted`).
- Files after the volume's own length, within the buffer, are reported as its files (line 334, `pi_files_past_the_end_refuted`); a volume ending in an unaligned extended header panics in `file_iter` (`pi_volume_end_refuted`).
- `lba_info` gives a wrong offset from the second region on (line 359, `pi_second_region_refuted`).
- Not modelled: whether the buffer is aligned for the structures read in place, recursion depth (each nesting level uses stack), `fv_attributes` and the mapping of type numbers to enumerations.

### The debugger on AArch64 (`Debugger/Arm*.v`)

- **The OS lock is never opened**: `initialize` tests bit 0 of OSLSR_EL1 (aarch64.rs:167), which belongs to the lock-model field and is 0; the lock is bit 1 (`c84_os_lock_refuted`). It is locked after a cold reset, and then neither watchpoints nor steps are taken unless earlier firmware opened it.
- **Step mode stays on** when the stepped instruction raises another exception: only a step exception clears MDSCR_EL1.SS (aarch64.rs:103-110), so a user who then continues is stopped for a step (`c84_continue_refuted`).
- **A watchpoint whose address is no multiple of four is accepted and misplaced**: the byte-select bits are not shifted (aarch64.rs:522-526), and the processor ignores the low bits of the address; a byte at an odd address is not watched at all (`c84_unaligned_refuted`). If those bits read as zero, it cannot be removed, and repeating it fills the table (`c84_remove_refuted`).
- A range across a multiple of eight, or longer than eight bytes, is accepted; what lies behind is not watched (`c84_long_refuted`).
- Writing any register clears the upper 32 bits of the saved status (`c84_status_refuted`). The register described as `fpcr` to the client is the context's FPSR (aarch64.rs:424).
- A step clears the debug mask in the saved status and does not restore it (part of `c84_resume`).
- Not modelled: caches, barriers, page tables and the monitor command; bits 49 to 63 of DBGWVR (sign extension) are kept as written.

### The SDK's boot services (`Bs/`)

- **`get_memory_map` gives a slice with as many entries as a descriptor has bytes** (boot_services.rs:1101 passes `descriptor_size` as the length), whatever the map (`c85_map_count_refuted`); with up to 18 descriptors it reaches past the block (`c85_map_overrun_refuted`). It also steps by the size of the Rust type, not by `descriptor_size`.
- **`into_raw` and `into_raw_mut` free the block**: the box is dropped when they return (boxed.rs:44-51; `leak` does forget it) (`c85_into_raw_refuted`).
- **`start_image` hands out the address of its own variable as exit data** (boot_services.rs:1459-1465), and dropping that frees an address that is no block; the data itself stays allocated (`c85_exit_data_refuted`). It does so even if there is none (`c85_no_exit_data_refuted`).
- Blocks are not freed if the second call fails: for a memory map that grew by more than 0x400 bytes (1087-1099), and for handles whenever there are none or more than before (1209-1218) (`c85_map_leak_refuted`, `c85_handles_leak_refuted`).
- A refused `reinstall_protocol_interface` loses the new interface (443-457, `c85_exchange_refuted`).
- Interfaces of size zero are destroyed when installed, and again when given back or after a failure (358-361, 368, `c85_zero_size_refuted`).
- Not modelled: `create_event_ex` transmutes an absent callback to a function pointer that is never null (226-229); the addition of 0x400 overflows for sizes near 2^64.

### The SDK's global allocator (`Bs/Galloc*.v`)

- Holds as stated (C86). The pool is any function that gives blocks as the UEFI specification says; `Layout::extend` and `align_offset` are modelled from the documentation of core. Requests of size zero are excluded, as `GlobalAlloc` does.

### The CPU protocol (`Cpu/`)

- **AArch64 flushes step by one byte less than a line** (`aligned_addr += cacheline_alignment`, aarch64/cpu.rs:43, where that is the length minus one) and end at the first address behind the range. A range of one line and one byte, from the start of a line, leaves its second line untreated (`c87_last_line_refuted`): what was written there is not in memory, or what a device wrote there is not seen (`c87_stale_refuted`). A range that ends at a line is treated whole (`c87_whole_lines`).
- A range of length zero treats the line it starts in (the loop tests at its end); this is within `c87_only`.
- **On x64 invalidating any range is INVD**: all that is only in the cache is lost (x64/cpu.rs:139-142, `c87_x64_invalidate_refuted`). Writing back is refused (`c87_x64_write_back_refuted`).
- The timer of x64 is a constant zero with period zero (x64/cpu.rs:87-94, `c87_timer_refuted`).
- Ranges that end within a line of 2^64 are excluded from the AArch64 theorems: there the additions overflow.
- `init` of either processor is `unimplemented!`, a panic behind a protocol any driver can call; not modelled.

### Sources of images (`File/`)

- **The authentication status of a volume is dropped** (image.rs:774 gives 0, `c88_authentication_refuted`), so the security protocols judge a file without it.
- The block ReadSection allocates is copied and never freed (image.rs:840-845, `c88_volume_leak_refuted`).
- No file is ever closed: `SimpleFile` has no Close, so each load leaves the root and everything on the way open (`c88_close_refuted`).
- A name that is not terminated within its node is passed on without a terminator (image.rs:864-874, `c88_unterminated_refuted`).
- LoadFile's buffer is not cut to the size the second call gives (image.rs:920-929, `c88_load_short_refuted`); `SimpleFile::read` does cut it (`c88_changed`).
- A driver that claims to have read more than asked makes the core panic (filesystems.rs:128), and that is the only panic (`c88_panic`); memory written beyond the buffer by such a driver is not modelled.
- Not modelled: finding the device (C29 covers `core_locate_device_path`), null interfaces.

### The readable form of HOBs (`Ser/`)

- **Memory allocations are merged in the order of their names** (the derived order of serializable_hob.rs:65 compares the name first), so that with several names overlapping intervals remain (`c89_allocations_refuted`). With one name the documented result holds (`c89_allocations_partial`).
- **Merging disregards type, name and attributes** (serializable_hob.rs:89-96, 128-136): MMIO that touches memory becomes memory (`c89_types_refuted`).
- An interval that ends at the end of the address space overflows in `end` (`c89_top_refuted`): with overflow checks a panic.
- Stable sorting is modelled by insertion. serde's own reading of JSON, which refuses borrowed strings with escapes, is not modelled.

### The serial line (`Serial/`)

- `write_byte` waits for the queue to have room and then for it to be empty, without a limit: a device that stops sending stops the machine (`c90_write_waits_refuted`).
- A level set while the debugger is in is undone when it leaves (`c90_set_refuted`).
- The receive queue of the device may overrun; bytes lost there never came in (`arrived`). Two processors or an exception handler that use the same device in between are not modelled. Each register access takes one tick.

### The serial logger (`Logger/`)

- **The short JSON format is not JSON**: log.rs:78 has no comma between the members, so a reader accepts no record (`c91_json_refuted`).
- **Text is not escaped** in either JSON format: a line feed makes the record unreadable (`c91_newline_refuted`), a quote lets a message forge members (`c91_forged_refuted`). Without quotes, backslashes and control characters the verbose format is read back (`c91_verbose_partial`).
- The first filter with a matching beginning decides, not the longest, and names are not matched at module boundaries (`c91_shadow_refuted`).
- A message with a line feed looks like two records (`c91_two_refuted`).
- The JSON reader of the specification knows objects with string values only; the formats write no others. That fragments of two records may interleave is not modelled.

### Driver bindings and status codes (`Bind/`)

- `install` drops the handle InstallProtocolInterface gives back (driver_binding.rs:247-253). A binding made with a null handle is installed on a new one, and `uninstall` asks with the null one: it can never be uninstalled (`c92_null_refuted`).
- An owner dropped while installed leaks the driver on purpose; `c92_lifetime` says so.
- The size of status code data is cut to 16 bits (status_code.rs:59, `c92_data_refuted`). The buffer has the alignment of bytes although a pointer to the header is made of it; alignment is not modelled. The header is taken to have 20 bytes.
- Calls by the firmware during `install` or on another TPL are not modelled.

### Section extractors (`Extract/`)

- **Malformed sections panic**: a CRC32 section whose header has more than four bytes behind the common ones (crc32.rs:29, `c93_crc_refuted`), a Brotli section of less than 16 bytes (brotli.rs:65-66) or an LZMA section of less than 13 (lzma.rs:40), and either if the size it claims cannot be allocated (`c93_short_refuted`).
- **A Brotli section that claims more than its stream gives is accepted**, padded with zeros: the number of bytes written is not looked at (brotli.rs:75-88, `c93_brotli_padding_refuted`).
- Decompressors and the checksum belong to other crates and are arbitrary functions. A content that is an error "unsupported" does not occur (section.rs:548-556) and is excluded from `c93_composite`.

### Performance calls (`Probe/`)

- **Every string given to a recording call leaks**: it is copied, the copy is given away with `into_raw` and never taken back (logging.rs:32-36, `c94_leak_refuted`). **A string with a zero byte panics** (logging.rs:35, `c94_zero_refuted`), although a measurement should not stop the system.
- **With MM communication region HOBs, but none of the user's, the component reports success and does nothing** (performance.rs:77-79, `c94_entry_refuted`), while without any such HOB it sets up everything but the MM event.
- Not modelled: the measurement protocol's own work (see `Perf/`), the time read, and what the events do when signalled.

### Test runner (`Runner/`)

- **A run with filters that fit no test announces all tests, runs none and succeeds** (test.rs:222-253, `c95_none_refuted`): a misspelt filter looks like a good run to whoever looks at the result only.
- **In debug mode the log's level is not put back**: a test that turns the log off hides the lines on all tests behind it (__private_api.rs:63-67, `c95_debug_refuted`).
- Tests that panic stop the system and are excluded (`calm`). The collection of tests by the linker and the macro that builds a test are not modelled.

### Pointers given to C (`CPtr/`)

- **What is kept of a pointer is not always enough to rebuild it**, although c_ptr.rs:19 says so: `Option` of a raw pointer, of the unit or of an `Option` has two values with the address null (`c96_option_refuted`), and `into_original_ptr` of the first reads sixteen bytes where eight were kept (c_ptr.rs:37-39). The trait accepts these types (c_ptr.rs:196).
- `PtrMetadata` is `Copy` (c_ptr.rs:18): a box can be got back, and freed, twice (`c96_twice_refuted`). The function is unsafe and its contract mentions aliasing.
- Not modelled: lifetimes and what is pointed to. Layouts are those Rust promises; anything else is an error of `original`.
