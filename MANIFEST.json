{
 "claims": [
  {
   "property": "C01",
   "status": "proved",
   "theorems": [
    "memory_map_tiles",
    "memory_map_persists"
   ],
   "note": ""
  },
  {
   "property": "C02",
   "status": "proved",
   "theorems": [
    "memory_call_exact_effect",
    "first_add_exact_effect"
   ],
   "note": ""
  },
  {
   "property": "C03",
   "status": "partial",
   "theorems": [
    "memory_call_failure_atomic_partial",
    "memory_call_failure_atomic_refuted_free",
    "memory_call_failure_atomic_refuted_first_add"
   ],
   "note": "failed calls change nothing except the two refuted cases: a free whose attribute step fails after the free, and the first add"
  },
  {
   "property": "C04",
   "status": "proved",
   "theorems": [
    "allocation_is_safe",
    "live_allocations_disjoint",
    "allocated_memory_was_added"
   ],
   "note": ""
  },
  {
   "property": "C05",
   "status": "partial",
   "theorems": [
    "bottom_up_lowest",
    "top_down_highest",
    "bottom_up_bound_refuted"
   ],
   "note": "lowest/highest proved for all searches; the page-0 skip has an off-by-one at the bound, refuted with a witness"
  },
  {
   "property": "C06",
   "status": "proved",
   "theorems": [
    "free_iff_allocated",
    "free_then_reallocate",
    "allocate_then_free"
   ],
   "note": ""
  },
  {
   "property": "C07",
   "status": "proved",
   "theorems": [
    "io_map_tiles",
    "io_call_exact_effect",
    "io_call_failure_atomic",
    "io_release_never_panics",
    "io_allocation_is_safe",
    "io_live_allocations_disjoint",
    "io_bottom_up_lowest",
    "io_top_down_highest",
    "io_range_call_iff"
   ],
   "note": ""
  },
  {
   "property": "C08",
   "status": "proved",
   "theorems": [
    "C08_tree_is_a_sorted_map",
    "C08_answers_are_determined",
    "C08_duplicate_add_uses_a_slot",
    "C08_dirty_buffer_refuted"
   ],
   "note": "Pointer-level model of node.rs/rbt.rs/bst.rs; every history of all public operations (both trees) runs to its end and agrees with a sorted map. Index operations are used on live indices and the buffer is zeroed at its end; C08_dirty_buffer_refuted shows what happens in a buffer that is not. Duplicate adds leak a slot (the specification says so)."
  },
  {
   "property": "C09",
   "status": "partial",
   "theorems": [
    "C09_balanced_without_deletes_partial",
    "C09_delete_breaks_colours_refuted",
    "C09_delete_breaks_height_refuted"
   ],
   "note": "Holds for every history without deletes. With deletes the claim is false of the code: both refutations are concrete legal histories."
  },
  {
   "property": "C10",
   "status": "partial",
   "theorems": [
    "C10_growing_keeps_the_contents_partial",
    "C10_growing_after_delete_refuted",
    "C10_exact_fit_refuted"
   ],
   "note": "Holds after every history without deletes, into a buffer with at least one spare slot. After a delete live elements can be lost; an exact fit panics."
  },
  {
   "property": "C11",
   "status": "proved",
   "theorems": [
    "sorted_slice_is_sorted_set",
    "sorted_slice_failure_atomic",
    "sorted_slice_search_agrees",
    "sorted_slice_search_with_key_partial",
    "sorted_slice_search_with_key_refuted"
   ],
   "note": "any ordered key type, any backing memory; search_with_key panics above the last element (refuted), characterised otherwise"
  },
  {
   "property": "C12",
   "status": "proved",
   "theorems": [
    "signalled_event_pending_once",
    "signal_event_exact",
    "signals_delivered_exactly_once",
    "closed_event_never_notified",
    "close_unknown_event_refuted"
   ],
   "note": "all histories; duplicate detection in the B-tree set is an arbitrary oracle; closing an unknown identifier >= 2^63 reports success (refuted side finding)"
  },
  {
   "property": "C13",
   "status": "proved",
   "theorems": [
    "dispatch_highest_first",
    "pending_first_in_first_out"
   ],
   "note": ""
  },
  {
   "property": "C14",
   "status": "proved",
   "theorems": [
    "signal_event_exact",
    "signal_group_exact",
    "signal_group_all_pending"
   ],
   "note": ""
  },
  {
   "property": "C15",
   "status": "partial",
   "theorems": [
    "timer_tick_exact",
    "timer_tick_release_no_panic",
    "set_timer_exact",
    "disarmed_timer_never_due",
    "relative_timer_fires_early_refuted",
    "timer_tick_no_panic_refuted"
   ],
   "note": "exact for every tick; trigger times wrap at 2^64 (refuted: a relative timer can fire at once), and with overflow checks the tick can panic"
  },
  {
   "property": "C16",
   "status": "partial",
   "theorems": [
    "restore_tpl_runs_above",
    "pending_never_lost",
    "restore_tpl_drains_partial",
    "running_code_nothing_above",
    "signal_event_runs_before_return",
    "raise_restore_nest",
    "restore_tpl_drains_refuted",
    "closed_event_callback_refuted",
    "restore_tpl_no_panic_refuted"
   ],
   "note": "for every interrupt schedule: level on return, callbacks only above and at their own level, nothing lost; the drain guarantee holds when no interrupt is taken and is refuted otherwise (window around EVENT_NOTIFIES_IN_PROGRESS)"
  },
  {
   "property": "C17",
   "status": "partial",
   "theorems": [
    "mutex_one_guard",
    "mutex_try_lock",
    "mutex_drop_restores",
    "mutex_try_lock_held",
    "sdk_mutex_drop_reentrant_refuted",
    "drop_order_panics_refuted",
    "try_lock_high_tpl_refuted"
   ],
   "note": "mutual exclusion, raise and restore proved for every interrupt schedule and arbitrary callbacks; 'a failed try_lock changes nothing' proved when no interrupt is taken; the SDK mutex's drop order is refuted"
  },
  {
   "property": "C18",
   "status": "proved",
   "theorems": [
    "protocol_get_interface",
    "protocol_handle_valid",
    "protocol_null_never_live",
    "protocol_locate_handles",
    "protocol_locate_protocol",
    "protocol_new_handle",
    "protocol_install_outcome",
    "protocol_protocols_on_handle",
    "protocol_registered_protocols",
    "protocol_init",
    "protocol_failure_unchanged",
    "protocol_no_panic",
    "protocol_services_reachable",
    "protocol_svc_locate_protocol_plain",
    "protocol_svc_locate_handle",
    "protocol_svc_uninstall",
    "protocol_svc_reinstall"
   ],
   "note": "every history of database calls, and every service with arbitrary re-entrant callbacks (protocol_services_reachable)"
  },
  {
   "property": "C19",
   "status": "proved",
   "theorems": [
    "protocol_one_claim",
    "protocol_open_outcome",
    "protocol_failure_unchanged",
    "protocol_open_report",
    "protocol_child_handles",
    "protocol_svc_open_interface",
    "protocol_svc_open_claims"
   ],
   "note": ""
  },
  {
   "property": "C20",
   "status": "partial",
   "theorems": [
    "protocol_uninstall_outcome",
    "protocol_uninstall_effect",
    "protocol_close_outcome",
    "protocol_open_close_restores",
    "protocol_svc_uninstall_unused",
    "protocol_close_one_open_refuted",
    "protocol_close_dead_agent_refuted",
    "protocol_svc_uninstall_failure_keeps_opens_refuted",
    "protocol_svc_uninstall_dead_agent_refuted"
   ],
   "note": "uninstall outcome proved; 'closing restores' holds when the agent held nothing through that controller and is refuted otherwise; opens of a dead agent can never be closed (refuted); the service drops informational opens before failing (refuted)"
  },
  {
   "property": "C21",
   "status": "partial",
   "theorems": [
    "protocol_next_for_registration",
    "protocol_registration_starts_empty",
    "protocol_install_events",
    "protocol_each_install_delivered_refuted",
    "protocol_delivered_handle_has_protocol_refuted",
    "protocol_svc_locate_protocol_no_panic_refuted",
    "protocol_locate_by_key_retry_refuted"
   ],
   "note": "delivery is per handle, not per installation (refuted: two installs on one handle are delivered once); a handle may be delivered after it lost the protocol; a too-small buffer loses the handle"
  },
  {
   "property": "C22",
   "status": "proved",
   "theorems": [
    "depex_eval_correct",
    "depex_eval_debug_correct"
   ],
   "note": "all expression trees, any trailing bytes, any installed list"
  },
  {
   "property": "C23",
   "status": "partial",
   "theorems": [
    "depex_eval_latches",
    "depex_stays_true",
    "depex_stays_true_with_not_refuted",
    "depex_true_only_if_wellformed",
    "depex_parse_consumes_all"
   ],
   "note": "stability is false for expressions containing NOT (refuted with a witness); proved for NOT-free ones, and totality/conservativity proved for every byte string"
  },
  {
   "property": "C24",
   "status": "partial",
   "theorems": [
    "depex_sor_blocks_until_scheduled",
    "depex_schedule_only_sor",
    "depex_association",
    "depex_association_strict_refuted"
   ],
   "note": "BEFORE/AFTER followed by junk is still treated as associated (refuted)"
  },
  {
   "property": "C25",
   "status": "partial",
   "theorems": [
    "align_up_correct",
    "align_down_correct",
    "align_range_correct",
    "is_power_of_two_correct",
    "align_range_total_refuted"
   ],
   "note": "align_range overflows when base+length does not fit (refuted); correct otherwise"
  },
  {
   "property": "C26",
   "status": "proved",
   "theorems": [
    "guid_display_registry",
    "guid_round_trip",
    "guid_display_injective",
    "guid_parse_exact",
    "guid_parse_bad_character",
    "guid_parse_bad_length",
    "guid_parse_total",
    "guid_order",
    "guid_fields"
   ],
   "note": "every byte image and every string of Unicode scalars"
  },
  {
   "property": "C27",
   "status": "proved",
   "theorems": [
    "c27_slots",
    "c27_finished",
    "c27_order",
    "c27_linearizable",
    "c27_reader",
    "c27_progress",
    "c27_phantom_refuted"
   ],
   "note": "any number of writers, any interleaving, stale relaxed loads and any order of byte stores; messages up to 65535 bytes and a log comfortably below 4 GiB (larger ones wrap, see c28_long_message_refuted); a reader that looks while a slot is reserved but unwritten may see a phantom entry (refuted side finding)"
  },
  {
   "property": "C28",
   "status": "proved",
   "theorems": [
    "c28_appends_iterate",
    "c28_initialize",
    "c28_reopen",
    "c28_long_message_refuted",
    "c28_read_only_add_refuted"
   ],
   "note": "messages up to 65535 bytes; longer ones are accepted but misread (refuted); appending to a reopened read-only log advances the counter before failing (refuted)"
  },
  {
   "property": "C29",
   "status": "partial",
   "theorems": [
    "c29_node_count",
    "c29_copy",
    "c29_concat",
    "c29_remaining",
    "c29_remaining_iff",
    "c29_is_end",
    "c29_walk",
    "c29_node_eq",
    "c29_null",
    "c29_locate_device_path",
    "c29_locate_errors",
    "c29_copy_stops_at_first_end",
    "c29_copy_multi_instance_refuted",
    "c29_zero_length_hangs"
   ],
   "note": "proved for every single-instance path (the part up to the first end node) and for LocateDevicePath over any handle list; for multi-instance paths counting, copying and concatenation stop at the first instance (refuted), and a zero-length node never terminates"
  },
  {
   "property": "C30",
   "status": "partial",
   "theorems": [
    "c30_build",
    "c30_iter",
    "c30_counts",
    "c30_eq",
    "c30_append_path",
    "c30_append_instances",
    "c30_append_node",
    "c30_slice_end",
    "c30_starts_with",
    "c30_starts_with_first_instance",
    "c30_starts_with_multi_refuted",
    "c30_iter_instances",
    "c30_instances_round_trip",
    "c30_try_from_ptr",
    "c30_null",
    "c30_long_node_lost",
    "c30_typed_packed",
    "c30_typed_padded",
    "c30_typed_interop_refuted",
    "c30_typed_release_round_trip",
    "c30_bios_debug",
    "c30_bios_release_refuted",
    "c30_eisa_value",
    "c30_pci_root_hid_refuted"
   ],
   "note": "proved for every node list; starts_with compares only the first instance of its argument (refuted beyond); typed nodes with padding and the EISA id encoding deviate (refuted)"
  },
  {
   "property": "C31",
   "status": "partial",
   "theorems": [
    "C31_round_trip",
    "C31_read_then_write",
    "C31_new_from_header",
    "C31_dirty_is_refused",
    "C31_set_data",
    "C31_composed_is_clean",
    "C31_extract",
    "C31_stream",
    "C31_length_0xFFFFFF_refuted",
    "C31_extended_small_refuted"
   ],
   "note": "Proved for every writable section and list of them. A section of exactly 0xFFFFFF bytes is written and cannot be read; extended headers with small sizes are read and written with different lengths. Compression codecs are not modelled."
  },
  {
   "property": "C32",
   "status": "partial",
   "theorems": [
    "C32_serializes",
    "C32_round_trip",
    "C32_header_checksum",
    "C32_header_damage_is_noticed",
    "C32_content_damage_is_noticed",
    "C32_data_checksum_refuted",
    "C32_large_bit_damage_refuted",
    "C32_state_damage_refuted",
    "C32_file_check_damage_refuted"
   ],
   "note": "Proved for every file without the data checksum attribute. With it, the reader ignores the stored check and refuses what the writer wrote. Header damage that turns the large-file bit can go unnoticed."
  },
  {
   "property": "C33",
   "status": "partial",
   "theorems": [
    "C33_round_trip",
    "C33_free_space",
    "C33_lba_first_region",
    "C33_alignment_16M_refuted",
    "C33_data_checksum_refuted",
    "C33_empty_block_map_refuted",
    "C33_trailing_bytes_refuted",
    "C33_lba_second_region_refuted"
   ],
   "note": "Proved for every volume of storable files. A 16 MiB alignment request panics, data-checksum files are refused, an empty block map is written but unreadable, bytes after the volume are read as files."
  },
  {
   "property": "C34",
   "status": "partial",
   "theorems": [
    "C34_section_is_safe",
    "C34_sections_end",
    "C34_file_is_safe",
    "C34_volume_header_is_safe",
    "C34_files_end_partial",
    "C34_zero_size_file_refuted",
    "C34_short_file_refuted",
    "C34_short_content_refuted",
    "C34_overlapping_section_refuted",
    "C34_short_section_refuted",
    "C34_short_ext_header_refuted",
    "C34_files_after_the_end_refuted"
   ],
   "note": "Release build. Proved: the panics and the endless iteration happen only for the inputs described; each is shown to happen."
  },
  {
   "property": "C35",
   "status": "proved",
   "theorems": [
    "C35_load",
    "C35_load_refused",
    "C35_relocate",
    "C35_relocate_again",
    "C35_relocate_back",
    "C35_table_is_safe",
    "C35_relocate_panics_only",
    "C35_record",
    "C35_record_makes_no_difference",
    "C35_resource_is_safe",
    "C35_resource_found",
    "C35_filename",
    "C35_unknown_kind_refuted",
    "C35_changed_value_refuted",
    "C35_short_record_refuted",
    "C35_preferred_address_record_refuted",
    "C35_second_name_refuted",
    "C35_resource_debug_panic_refuted"
   ],
   "note": "for images whose base field, table and places lie within the image and apart from each other; other entry kinds panic, and the record for the runtime does not do what it is for (refutations)"
  },
  {
   "property": "C36",
   "status": "proved",
   "theorems": [
    "config_table_is_map",
    "config_table_call",
    "config_table_no_leak",
    "config_table_service"
   ],
   "note": "for every allocator choice of addresses"
  },
  {
   "property": "C37",
   "status": "proved",
   "theorems": [
    "runtime_lists_published",
    "runtime_add_event_fails"
   ],
   "note": "every history in which the allocator hands out unused addresses"
  },
  {
   "property": "C38",
   "status": "proved",
   "theorems": [
    "C38_each_driver_once",
    "C38_only_when_met",
    "C38_start_order",
    "C38_only_when_trusted",
    "C38_deferred_waits",
    "C38_one_file_each",
    "C38_volume_once",
    "C38_trusting_associated_refuted"
   ],
   "note": "Every history, every behaviour of images and notifications, nested dispatches included. A protocol counts from when a pass first saw it (the code caches). Dependencies are judged for well-formed depex sections. A deferred driver stays until trusted; for BEFORE/AFTER drivers the trust request is refused (refuted theorem)."
  },
  {
   "property": "C39",
   "status": "partial",
   "theorems": [
    "C39_terminates",
    "C39_nothing_left_partial",
    "C39_chain_refuted",
    "C39_reentrant_refuted",
    "C39_dispatching_notification_refuted"
   ],
   "note": "Termination for every state when nothing brings volumes and notifications do not dispatch. Nothing left: proved without notifications, except for a driver AFTER a driver that is AFTER a third, which is false of the code."
  },
  {
   "property": "C40",
   "status": "partial",
   "theorems": [
    "C40_asks_and_starts",
    "C40_bad_handle",
    "C40_priority_order",
    "C40_started_once",
    "C40_start_after_yes",
    "C40_all_others_declined",
    "C40_no_duplicate_start",
    "C40_security",
    "C40_one_controller",
    "C40_children",
    "C40_terminates",
    "C40_recursion_terminates",
    "C40_named_twice_refuted",
    "C40_child_cycle_refuted",
    "C40_null_override_refuted"
   ],
   "note": "proved for every behaviour of bindings, overrides, security and database; the source order assumes that override protocols do not change the database while they are asked; false as stated when a caller names a driver twice, when open information makes two handles each other's children, and for null override interfaces"
  },
  {
   "property": "C41",
   "status": "partial",
   "theorems": [
    "c41_resource_fields",
    "c41_discover",
    "c41_c_list_size",
    "c41_iter_partial",
    "c41_iter_v2",
    "c41_iter_refuted",
    "c41_list_size_partial",
    "c41_list_size_refuted",
    "c41_misc_header_refuted",
    "c41_misc_iter_refuted",
    "c41_wrong_length",
    "c41_wrong_length_alloc",
    "c41_short_guid_refuted",
    "c41_zero_length_refuted",
    "c41_hang_zero_length",
    "c41_attributes_valid_partial",
    "c41_attributes_valid_refuted",
    "c41_v2_from_v1_refuted"
   ],
   "note": "discovery and the in-memory size are proved for every well-formed list; the iterator misreads version 2 resource descriptors, HobList::size counts two bytes for unknown blocks, attributes_valid pairs READ_PROTECTED with the wrong capability, malformed lists panic, hang or read out of bounds (all refuted with witnesses)"
  },
  {
   "property": "C42",
   "status": "partial",
   "theorems": [
    "holdings_in_allocated_memory",
    "holdings_disjoint",
    "live_buffer_is_freed",
    "live_block_is_given_back",
    "foreign_buffer_rejected",
    "freed_buffer_is_reusable",
    "double_free_rejected_partial",
    "double_free_rejected_refuted",
    "huge_pool_request_fails_refuted"
   ],
   "note": "For every history of calls on all allocators, all choices of the fallback heap, and callers that give back only what they hold. Header checks: no signature or a type without allocator is rejected; a second free is rejected unless the compiler puts the signature in the first word and the buffer is small, where it is false (refuted). A forged header with a valid signature is accepted by design."
  },
  {
   "property": "C43",
   "status": "partial",
   "theorems": [
    "allocated_pages",
    "free_pages_only_own",
    "own_pages_are_freed",
    "foreign_pages_rejected",
    "page_statistics",
    "allocated_pages_enough_refuted",
    "free_pages_spares_pool_refuted",
    "reserve_is_kept_refuted",
    "page_zero_fails_without_effect_refuted"
   ],
   "note": "For every history. The length is enough in debug builds and whenever the byte count fits 64 bits; release builds wrap beyond that (refuted). Statistics are exact modulo 2^32 as long as callers free parts of runs they hold; page 0 and pool memory break that (refuted)."
  },
  {
   "property": "C44",
   "status": "partial",
   "theorems": [
    "stall_waits",
    "stall_at_least_refuted",
    "stall_at_least_partial",
    "stall_zero_period_panics",
    "stall_not_ready"
   ],
   "note": "'at least' is false (ticks rounded down, refuted); exact total proved; short by less than one tick"
  },
  {
   "property": "C45",
   "status": "partial",
   "theorems": [
    "exit_boot_services_sequence",
    "exit_boot_services_atomic",
    "exit_boot_services_panics",
    "exit_boot_services_failure_stops_timer_refuted",
    "exit_boot_services_stays_locked_refuted",
    "exit_boot_services_once_reentrant_refuted"
   ],
   "note": "proved for every sequence of calls whose notification functions do not re-enter the service; re-entrance signals twice (refuted), a failed later call unlocks memory (refuted)"
  },
  {
   "property": "C46",
   "status": "proved",
   "theorems": [
    "gcd_release_never_panics",
    "gcd_debug_panic_refuted"
   ],
   "note": "the debug-build panic is exhibited"
  },
  {
   "property": "C47",
   "status": "proved",
   "theorems": [
    "attributes_within_capabilities"
   ],
   "note": ""
  },
  {
   "property": "C48",
   "status": "partial",
   "theorems": [
    "protocol_install_multiple_atomic",
    "protocol_uninstall_multiple_partial",
    "protocol_uninstall_multiple_atomic_refuted"
   ],
   "note": "install is all-or-nothing when callbacks make no protocol calls; uninstall only while the handle keeps another protocol (refuted otherwise)"
  },
  {
   "property": "C49",
   "status": "proved",
   "theorems": [
    "watchdog_period",
    "watchdog_not_ready",
    "crc32_service"
   ],
   "note": "the CRC function itself is a parameter"
  },
  {
   "property": "C50",
   "status": "proved",
   "theorems": [
    "c50_writer",
    "c50_writer_single",
    "c50_port_only",
    "c50_record",
    "c50_parse",
    "c50_metadata",
    "c50_time",
    "c50_time_refuted",
    "c50_enabled"
   ],
   "note": "the formatter's pieces are arbitrary; a header frequency of 1..999 Hz makes the parser divide by zero (refuted side finding)"
  },
  {
   "property": "C51",
   "status": "proved",
   "theorems": [
    "c51_reader_total",
    "c51_debug_panic_refuted"
   ],
   "note": "release build, any bytes; a debug build panics on a header whose offset and size overflow (refuted)"
  },
  {
   "property": "C53",
   "status": "partial",
   "theorems": [
    "c53_init",
    "c53_step",
    "c53_history",
    "c53_history_debug",
    "c53_boot",
    "c53_set_attributes_works",
    "c53_allocate_not_executable",
    "c53_free_works",
    "c53_failure_rolled_back",
    "c53_set_attributes_ends",
    "c53_set_attributes_ends_refuted",
    "c53_refuted_unsupported_attributes",
    "c53_refuted_plain_attributes",
    "c53_refuted_free_preserving",
    "c53_refuted_free_locked",
    "c53_refuted_remove",
    "c53_refuted_compatibility",
    "c53_protect_again_panics_refuted",
    "c53_boot_page_0_panics_refuted",
    "c53_wrapping_length_refuted"
   ],
   "note": "proved for every history of careful calls (whole pages removed, no free while locked, at least one mapping attribute) that passes no assertion, under arbitrary paging faults; outside it the two structures part (refuted with reachable states), and requests past the end of the address space never return in a release build"
  },
  {
   "property": "C52",
   "status": "proved",
   "theorems": [
    "C52_maps_match_the_descriptors",
    "C52_sensible_descriptors_accepted",
    "C52_capabilities",
    "C52_first_map",
    "C52_tail_lost_refuted",
    "C52_open_caching_refuted",
    "C52_read_protected_refuted",
    "C52_reliable_memory_open_refuted"
   ],
   "note": "A descriptor claims the addresses it covers outside the free memory of the hand-off table, and nothing at all when it starts inside that memory (C52_tail_lost_refuted). Memory space HOBs and allocation HOBs, read later, are not modelled."
  },
  {
   "property": "C54",
   "status": "partial",
   "theorems": [
    "C54_disconnect",
    "C54_only_managers",
    "C54_no_panic",
    "C54_named_child_refuted",
    "C54_no_such_child_refuted"
   ],
   "note": "the calls and the result are proved for every history and every Stop behaviour; 'with a child named only that child's driver is affected' and 'success means something was done' are refuted"
  },
  {
   "property": "C55",
   "status": "partial",
   "theorems": [
    "memory_map_sound",
    "memory_map_complete",
    "memory_map_in_order",
    "memory_map_merged",
    "holdings_reported",
    "holdings_not_free",
    "get_memory_map_contract",
    "get_memory_map_never_panics",
    "allocated_memory_not_free_refuted",
    "all_memory_reported_refuted"
   ],
   "note": "For every history of allocators and memory space calls. Completeness needs every page to have one state: memory added off a page boundary is left out altogether (refuted). What the allocators handed out is never reported free; memory allocated in the memory space by another image handle is (refuted)."
  },
  {
   "property": "C56",
   "status": "partial",
   "theorems": [
    "map_key_accepted",
    "map_key_refused_partial",
    "map_key_notices_type",
    "crc32_small_change",
    "map_key_of_same_map_refuted",
    "stale_map_key_refused_refuted"
   ],
   "note": "The key is accepted for the same map if the padding bytes of the entries, which nothing initialises, are also the same (refuted otherwise). A change within four bytes is always noticed, so a changed memory type is; not every change is: two reachable maps with one key are exhibited (refuted)."
  },
  {
   "property": "C57",
   "status": "partial",
   "theorems": [
    "image_entry_point_runs_at_most_once",
    "start_image_enters",
    "start_image_unknown",
    "exit_ends_start",
    "entry_return_ends_start",
    "unload_function_return",
    "exit_of_another_image",
    "exit_of_unknown_image",
    "exit_of_unstarted_image",
    "start_image_of_running_image_refuted",
    "start_image_of_core_refuted",
    "start_image_twice_refuted",
    "image_unloaded_while_running_refuted"
   ],
   "note": "The first holds in every run. The others, where they speak of running images, in runs in which nobody starts or unloads an image whose code is running (without that an Exit can resume a coroutine that is gone, refuted). StartImage of a started image unloads it (refuted)."
  },
  {
   "property": "C58",
   "status": "partial",
   "theorems": [
    "unload_image_contract",
    "unload_function_return",
    "unload_cleans_up",
    "unload_removes_loaded_image_protocol",
    "unload_leaves_protocols_refuted",
    "image_nested_unload_refuted"
   ],
   "note": "In every such run, when drivers and callbacks make no database calls during the unload. Opens through controllers that no longer exist stay. The device path copy and the HII package list stay installed (refuted)."
  },
  {
   "property": "C59",
   "status": "partial",
   "theorems": [
    "load_image_contract",
    "load_image_failure",
    "loaded_images_are_listed",
    "image_services_no_crash_partial",
    "denied_image_runs_refuted",
    "load_image_late_failure_refuted",
    "load_image_no_panic_refuted"
   ],
   "note": "A denied image is loaded and can be started; a late failure leaves protocols and table entries; Security2 without Security panics for firmware volume files (all refuted). Parsing and relocating the file is C35, memory protection of images is not covered here."
  },
  {
   "property": "C60",
   "status": "partial",
   "theorems": [
    "component_dispatch_completes",
    "component_runs_at_most_once",
    "component_gets_its_parameters",
    "component_left_behind",
    "undemanding_component_runs",
    "published_service_is_visible",
    "given_service_is_visible",
    "tuple_parameter_not_validated_refuted",
    "tuple_configuration_unlocked_refuted",
    "config_mut_order_refuted",
    "config_mut_relocked_by_command_refuted",
    "failing_component_panics_refuted",
    "last_commands_lost_refuted"
   ],
   "note": "For components without a tuple as a parameter; a tuple is handed out unvalidated (refuted). What the last component queues is never carried out (refuted), so published services are there for later components and for those left over. Bodies are functions of the storage and of what they were handed."
  },
  {
   "property": "C61",
   "status": "partial",
   "theorems": [
    "conflicting_parameters_rejected",
    "conflict_symmetric",
    "component_dispatch_completes",
    "release_build_accepts_any",
    "release_conflict_panics_refuted",
    "aliasing_parameters_accepted_refuted"
   ],
   "note": "Debug builds only: release builds accept everything and panic at the borrow when the component runs (refuted). Commands, HOBs and services are not counted as aliasing &mut Storage (refuted)."
  },
  {
   "property": "C62",
   "status": "proved",
   "theorems": [
    "built_storage_shows",
    "storage_over_the_start",
    "component_gets_its_parameters",
    "hob_parameter_delivers",
    "configurations_end_locked"
   ],
   "note": "Types are numbers, values are numbers tagged with their type; every downcast of the getters is checked."
  },
  {
   "property": "C63",
   "status": "proved",
   "theorems": [
    "c63_set_invalid",
    "c63_clear_invalid",
    "c63_set",
    "c63_clear",
    "c63_set_nothing_else",
    "c63_clear_nothing_else",
    "c63_ends",
    "c63_get",
    "c63_get_errors",
    "c63_page_set_refused",
    "c63_page_set",
    "c63_page_get",
    "c63_page_get_after_set",
    "c63_past_the_end_hangs_refuted",
    "c63_get_after_set_refuted",
    "c63_clear_ignored_refuted",
    "c63_page_get_refuted",
    "c63_refused_by_the_map_refuted",
    "c63_refused_by_the_page_table",
    "c63_page_refused_by_the_page_table"
   ],
   "note": "Success is characterised when no assertion failed (a debug build stops at one; a release build goes on, and then c63_set_nothing_else still bounds the effect). The page table follows a Clear only where a cacheability or access attribute is left; a request from the end of the address space never returns; a range that is part of a longer stretch in one state cannot be read (see the refuted theorems)."
  },
  {
   "property": "C64",
   "status": "proved",
   "theorems": [
    "c64_apply",
    "c64_never_writable_and_executable",
    "c64_mapped_as_sections",
    "c64_remove",
    "c64_guard",
    "c64_unguard",
    "c64_fixup",
    "c64_fixup_refuted",
    "c64_unreadable_section_writable_refuted"
   ],
   "note": "When no assertion failed. Overlapping sections get the protection of the last. A section that is neither code nor readable stays writable whatever its write flag."
  },
  {
   "property": "C65",
   "status": "partial",
   "theorems": [
    "c65_sound",
    "c65_never_writable_and_executable",
    "c65_complete",
    "c65_in_order",
    "c65_holdings"
   ],
   "note": "Completeness asks that every page has one state. Runtime memory without any protection in force is reported as protected (not executable, and for code not writable), which is what the code intends but not what is in force. Histories are those of the allocators; that image protections keep them is not stated."
  },
  {
   "property": "C66",
   "status": "proved",
   "theorems": [
    "c66_region",
    "c66_raw_parts",
    "c66_get_within",
    "c66_set_message",
    "c66_get_message",
    "c66_refused",
    "c66_sent",
    "c66_never_panics",
    "c66_answer_of_other_length_refuted",
    "c66_clone_refuted",
    "c66_overlap_refuted",
    "c66_trigger"
   ],
   "note": "An answer of another length than the request is refused even if its header says so; clones of a buffer and overlapping buffers do not follow each other (refuted). Panics of the trigger itself (SMC ports) are the trigger's. A handler that calls communicate again is not modelled."
  },
  {
   "property": "C67",
   "status": "proved",
   "theorems": [
    "c67_iterate",
    "c67_table",
    "c67_add",
    "c67_add_within",
    "c67_report",
    "c67_too_long_refuted",
    "c67_second_report_refuted"
   ],
   "note": "Tables under 4 GiB; replacing the records is covered before publication, as the code uses it. A record longer than 255 bytes breaks the table (c67_too_long_refuted), and a second publication moves the address (c67_second_report_refuted); neither is excluded by the code."
  },
  {
   "property": "C68",
   "status": "proved",
   "theorems": [
    "c68_id",
    "c68_pair",
    "c68_adjusted_refuted",
    "c68_measured",
    "c68_refused",
    "c68_null_refuted",
    "c68_long_name_refuted",
    "c68_long_name_published_refuted",
    "c68_hob",
    "c68_hob_refuted",
    "c68_merge",
    "c68_fetch",
    "c68_fetch_hangs_refuted",
    "c68_fetch_panics_refuted",
    "c68_mm_records"
   ],
   "note": "For names of at most 204 bytes and non-null callers; what happens beyond is refuted separately. The time is an input (the conversion of ticks is in floating point); the GUID of the calling image is a function of the handle."
  },
  {
   "property": "C69",
   "status": "partial",
   "theorems": [
    "c69_offset",
    "c69_caller",
    "c69_trace",
    "c69_deep",
    "c69_prefix",
    "c69_ends",
    "c69_xmm_refuted",
    "c69_xmm_panic_refuted",
    "c69_xmm_caller_refuted",
    "c69_boundary_refuted",
    "c69_exact_fit_refuted",
    "c69_false_header_refuted",
    "c69_outside_refuted",
    "c69_table_panic_refuted",
    "c69_short_record_refuted"
   ],
   "note": "Proved for functions whose prolog has no XMM saves and whose stack pointer is where the prolog left it; XMM saves, addresses at the end of a function, unwind information at the end of an image, stray MZ pages and malformed tables are refuted. Machine frames, chained unwind information, variable-sized frames (frame pointers) are not followed by the code and not in the specification. Names of images are not modelled; faults on unmapped memory are not modelled; AArch64 is not modelled."
  },
  {
   "property": "C70",
   "status": "partial",
   "theorems": [
    "c70_attributes",
    "c70_next_file",
    "c70_enumerate",
    "c70_read_file",
    "c70_read_section_partial",
    "c70_section_long_buffer_refuted",
    "c70_no_such_file",
    "c70_not_readable",
    "c70_unknown",
    "c70_wrong_kind",
    "c70_decompressed_tiano",
    "c70_block_read_partial",
    "c70_block_end",
    "c70_block_size_refuted",
    "c70_install",
    "c70_hobs",
    "c70_nested_refuted",
    "c70_sizes_refuted",
    "c70_allocation_refuted",
    "c70_second_region_refuted",
    "c70_offset_refuted",
    "c70_bad_hob_refuted",
    "c70_stored_section",
    "c70_other_extractor",
    "c70_decompressed"
   ],
   "note": "Enumeration, ReadFile, installing and refusals hold in full. ReadSection holds for buffers not longer than the section (a longer one panics) and for sections at most one encapsulation deep (deeper ones are not found). Block reads hold in the first region of the block map. GetBlockSize is wrong for every block: it gives (offset, size) for (size, count)."
  },
  {
   "property": "C71",
   "status": "partial",
   "theorems": [
    "c71_get_partial",
    "c71_get_success",
    "c71_get_hint_refuted",
    "c71_get_missing",
    "c71_size",
    "c71_unterminated",
    "c71_set_get",
    "c71_walk_partial",
    "c71_walk_from_partial",
    "c71_next_partial",
    "c71_walk_strict_refuted",
    "c71_next_strict_refuted",
    "c71_tail_refuted",
    "c71_retry"
   ],
   "note": "Reading is exact unless the hint is above the size, where zero bytes follow the data (c71_get_hint_refuted). Enumeration is proved over a firmware that does not check that the given name ends within the given size: the wrapper gives the size in characters, not bytes, and a firmware that checks refuses every walk (c71_walk_strict_refuted, c71_next_strict_refuted). The firmware is a specification, not code of the repository."
  },
  {
   "property": "C72",
   "status": "proved",
   "theorems": [
    "c72_table",
    "c72_stopped",
    "c72_modified_refuted",
    "c72_order_refuted"
   ],
   "note": "The order of entries is not that of loading (c72_order_refuted), and a removal that finds nothing reports a modification too (c72_modified_refuted). Allocation does not fail in the model; the pointer to the system table is not modelled."
  },
  {
   "property": "C73",
   "status": "partial",
   "theorems": [
    "c73_read",
    "c73_read_succeeds",
    "c73_read_last_refuted",
    "c73_read_empty_refuted",
    "c73_write_partial",
    "c73_write_refused",
    "c73_write_beyond_refuted",
    "c73_write_pages_refuted",
    "c73_write_large_refuted",
    "c73_write_top_refuted"
   ],
   "note": "Reading and refusals hold; writing holds within one page. The code falsifies the rest: a write over a page boundary puts every part at the start address and nothing further than 4096 bytes on is written (c73_write_beyond_refuted, c73_write_pages_refuted)."
  },
  {
   "property": "C74",
   "status": "partial",
   "theorems": [
    "c74_breakpoints_partial",
    "c74_restored_partial",
    "c74_twice_refuted",
    "c74_twice_lost_refuted"
   ],
   "note": "For histories in which no two set breakpoints overlap and none crosses a page. An address set twice is refuted."
  },
  {
   "property": "C75",
   "status": "partial",
   "theorems": [
    "c75_read_partial",
    "c75_read_refuted",
    "c75_write",
    "c75_write_back_refuted",
    "c75_context",
    "c75_ids",
    "c75_ids_refuted",
    "c75_resume",
    "c75_resume_breakpoint",
    "c75_hardcoded",
    "c75_restart_refuted",
    "c75_step",
    "c75_step_others"
   ],
   "note": "General registers, instruction pointer and flags are shown as they are; the code shows segment and control registers wrongly and a write-back damages them (c75_read_refuted, c75_write_back_refuted). x64 only."
  },
  {
   "property": "C76",
   "status": "partial",
   "theorems": [
    "c76_start",
    "c76_history",
    "c76_covers_partial",
    "c76_eight_refuted",
    "c76_four_refuted",
    "c76_unaligned_refuted",
    "c76_second_refuted",
    "c76_read_refuted"
   ],
   "note": "The table of slots is right in every history; the ranges are right for one and two bytes. The length codes for four and eight are exchanged, unaligned ranges are accepted and not watched."
  },
  {
   "property": "C77",
   "status": "partial",
   "theorems": [
    "c77_output",
    "c77_offset",
    "c77_piece",
    "c77_document",
    "c77_long_refuted",
    "c77_modules",
    "c77_suffix_refuted",
    "c77_list_partial",
    "c77_list_zero_refuted",
    "c77_commands"
   ],
   "note": "In full but for a request whose end is beyond 2^64 (c77_long_refuted), a list of zero modules (c77_list_zero_refuted) and the suffix in capitals (c77_suffix_refuted)."
  },
  {
   "property": "C78",
   "status": "partial",
   "theorems": [
    "c78_exception_partial",
    "c78_fxsave",
    "c78_resume_partial",
    "c78_cr4_refuted",
    "c78_alias_refuted",
    "c78_gates",
    "c78_gates_refuted"
   ],
   "note": "x86-64, over a small machine that runs the assembly line by line. False for vectors from 64 on that look like ones with an error code, for vector 21 (wrong stub) and 18 (no gate), and for two bits of CR4; debug and segment registers are not taken from the context, by design. AArch64 entry code is not modelled."
  },
  {
   "property": "C79",
   "status": "partial",
   "theorems": [
    "c79_dispatch",
    "c79_unhandled",
    "c79_protocol",
    "c79_self_refuted",
    "c79_interrupted_refuted"
   ],
   "note": "Equivalence with a reference without locks, for every history and every handler; the reference excludes registration for a type that is being handled, which never returns, and an exception during a registration of its type panics."
  },
  {
   "property": "C80",
   "status": "partial",
   "theorems": [
    "c80_private_partial",
    "c80_shared_refuted",
    "c80_state_refuted",
    "c80_failed_refuted",
    "c80_last_refuted",
    "c80_trigger_refuted",
    "c80_reentrant_refuted",
    "c80_end_refuted"
   ],
   "note": "Proved for private sources; false for shared sources (SPIs), whose numbers are mapped 32 places too high, and for trigger types. The arm-gic crate is replaced by what the GICv3 architecture says."
  },
  {
   "property": "C81",
   "status": "partial",
   "theorems": [
    "c81_offsets",
    "c81_caller",
    "c81_trace_partial",
    "c81_deep",
    "c81_ends",
    "c81_fplrx_refuted",
    "c81_lr_unnoticed_refuted",
    "c81_leaf_refuted",
    "c81_vector_pair_refuted",
    "c81_vector_refuted",
    "c81_hang_refuted",
    "c81_truncated_refuted",
    "c81_packed_refuted",
    "c81_boundary_refuted"
   ],
   "note": "Proved for functions that save the frame pointer and link register at an offset from the stack pointer, with any other saves and allocations except some of vector registers, and for chained packed functions; false for the other ways to save the link register. Addresses within a prolog or epilog are not treated, by the code or here."
  },
  {
   "property": "C82",
   "status": "partial",
   "theorems": [
    "earlier_allocations_kept_partial",
    "only_described_memory_taken",
    "page_zero_taken",
    "blocks_never_panic",
    "crossing_block_refuted",
    "overlapping_blocks_refuted",
    "half_unit_block_refuted",
    "part_page_block_refuted",
    "own_heap_in_the_way_refuted"
   ],
   "note": "Kept: blocks in one stretch of free memory, in whole units of pages, that overlap no other, of types whose allocator exists. False for blocks that cross descriptors, overlap, are not in whole units, and for memory the core's own heap grows into while it creates an allocator."
  },
  {
   "property": "C83",
   "status": "partial",
   "theorems": [
    "pi_volume_read_partial",
    "pi_sections_read",
    "pi_bad_file_reported",
    "pi_section_errors",
    "pi_accepted_volume",
    "pi_files_reported_are_there",
    "pi_header_change_caught",
    "pi_volume_never_panics",
    "pi_first_region_blocks",
    "pi_block_sizes_partial",
    "pi_second_region_refuted",
    "pi_checksum_refuted",
    "pi_section_length_refuted",
    "pi_vendor_section_refuted",
    "pi_vendor_section_loop_refuted",
    "pi_short_file_refuted",
    "pi_empty_file_loop_refuted",
    "pi_files_past_the_end_refuted",
    "pi_volume_end_refuted"
   ],
   "note": "Reading back holds for volumes whose summed files have content summing to zero, and for sections of types below 0xC0. False: files with a right data checksum are refused; bad section lengths panic; empty files and vendor sections of size zero loop for ever; a vendor section's data is everything after it; files past the volume's length are reported; blocks past the first region are misplaced."
  },
  {
   "property": "C84",
   "status": "partial",
   "theorems": [
    "c84_read",
    "c84_write",
    "c84_write_back_partial",
    "c84_status_refuted",
    "c84_ids",
    "c84_reason",
    "c84_resume",
    "c84_hardcoded",
    "c84_no_resume",
    "c84_steps",
    "c84_step_taken",
    "c84_continue_refuted",
    "c84_poke",
    "c84_start",
    "c84_os_lock_refuted",
    "c84_enable_bit",
    "c84_history_partial",
    "c84_covers_partial",
    "c84_unaligned_refuted",
    "c84_long_refuted",
    "c84_remove_refuted"
   ],
   "note": "Registers, reasons, resumption and address tests hold in full, but the upper half of the saved status is lost on a write. False: continuing after a stepped instruction that raised another exception leaves step mode on; a start does not open the OS lock; watchpoints at addresses that are no multiple of four, or across a multiple of eight, are accepted and not (wholly) watched, and may not be removable."
  },
  {
   "property": "C85",
   "status": "partial",
   "theorems": [
    "c85_box",
    "c85_into_raw_refuted",
    "c85_lists",
    "c85_handles_partial",
    "c85_handles_failure",
    "c85_handles_leak_refuted",
    "c85_map_read_partial",
    "c85_map_count_refuted",
    "c85_map_overrun_refuted",
    "c85_map_leak_refuted",
    "c85_start_ok",
    "c85_exit_data_refuted",
    "c85_no_exit_data_refuted",
    "c85_drivers",
    "c85_pages",
    "c85_typed",
    "c85_interfaces",
    "c85_exchange_partial",
    "c85_exchange_refuted",
    "c85_zero_size_refuted"
   ],
   "note": "Boxes, lists, drivers, pages, typed interfaces and histories of installs and uninstalls hold. False: the number of memory descriptors is the size of one; a box turned into a pointer is freed; exit data is the address of a local variable; a refused exchange loses the new interface; interfaces of size zero are destroyed at install; blocks leak when the second call fails."
  },
  {
   "property": "C86",
   "status": "proved",
   "theorems": [
    "c86_blocks",
    "c86_free",
    "c86_no_leak",
    "c86_count",
    "c86_alloc"
   ],
   "note": "For any history with any pool that gives disjoint blocks aligned to eight bytes."
  },
  {
   "property": "C87",
   "status": "partial",
   "theorems": [
    "c87_line",
    "c87_ends",
    "c87_only",
    "c87_covered_partial",
    "c87_whole_lines",
    "c87_last_line_refuted",
    "c87_stale_refuted",
    "c87_write_back_partial",
    "c87_same_seen",
    "c87_x64_write_back",
    "c87_x64_invalidate_refuted",
    "c87_x64_write_back_refuted",
    "c87_timer",
    "c87_timer_writes",
    "c87_timer_refuted"
   ],
   "note": "On AArch64 every line that ends within the range is treated, and only lines of the range. False: the last line of a range that ends within it may be missed, as the step is one byte short of a line. On x64 invalidating a range discards the whole cache, writing back alone is refused, and the timer stands still."
  },
  {
   "property": "C88",
   "status": "partial",
   "theorems": [
    "c88_file",
    "c88_directory",
    "c88_changed",
    "c88_panic",
    "c88_path",
    "c88_sfs",
    "c88_other_nodes",
    "c88_unterminated_refuted",
    "c88_close_refuted",
    "c88_load",
    "c88_load_short_refuted",
    "c88_volume",
    "c88_volume_leak_refuted",
    "c88_null",
    "c88_first",
    "c88_authentication_refuted"
   ],
   "note": "Contents, lookup and order of the ways hold for every driver that keeps to the specification. False: files are not closed, the block a volume gives is not freed, its authentication status is dropped, a name without a terminator is read past its end, and a shorter second answer of LoadFile is padded."
  },
  {
   "property": "C89",
   "status": "partial",
   "theorems": [
    "c89_covered",
    "c89_resources",
    "c89_allocations_partial",
    "c89_allocations_refuted",
    "c89_types_refuted",
    "c89_top_refuted",
    "c89_numbers",
    "c89_bounds"
   ],
   "note": "The addresses covered are kept for every list and order; resources come out in order with gaps; numbers are read back. False: allocations of several names are sorted by name first, so overlaps remain; intervals of different types that touch become one of the first's type; an interval that ends at 2^64 panics with overflow checks."
  },
  {
   "property": "C90",
   "status": "partial",
   "theorems": [
    "c90_received",
    "c90_sent",
    "c90_buffer",
    "c90_peek",
    "c90_peek_empty",
    "c90_read_ends",
    "c90_write_ends",
    "c90_write_waits_refuted",
    "c90_level",
    "c90_silent",
    "c90_set_refuted"
   ],
   "note": "Proved for the PL011 and every schedule. False: a write ends only if the device sends (no time limit); a level set while the debugger is in is undone. The 16550 is driven by another crate and not modelled."
  },
  {
   "property": "C91",
   "status": "partial",
   "theorems": [
    "c91_filter",
    "c91_severity",
    "c91_log",
    "c91_monotone",
    "c91_shadow_refuted",
    "c91_verbose_partial",
    "c91_json_refuted",
    "c91_newline_refuted",
    "c91_forged_refuted",
    "c91_lines",
    "c91_two_refuted",
    "c91_standard",
    "c91_standard_read",
    "c91_number",
    "c91_names"
   ],
   "note": "The filter, and the verbose format for text without special characters. False: no record in the short JSON format is JSON (a comma is missing), text is not escaped, an earlier filter with a shorter name hides a later one, and messages with line feeds look like several records."
  },
  {
   "property": "C92",
   "status": "partial",
   "theorems": [
    "c92_lifetime",
    "c92_others",
    "c92_results",
    "c92_uninstall_partial",
    "c92_null_refuted",
    "c92_supported",
    "c92_start",
    "c92_data_partial",
    "c92_data_refuted",
    "c92_report"
   ],
   "note": "Proved for every history on a handle that exists, and for data of less than 64 KiB. False: with a null handle the new handle's name is forgotten, so that the binding can never be uninstalled; the size of larger data is reduced modulo 64 KiB."
  },
  {
   "property": "C93",
   "status": "partial",
   "theorems": [
    "c93_crc",
    "c93_crc_detects",
    "c93_crc_refuted",
    "c93_brotli",
    "c93_brotli_size",
    "c93_brotli_padding_refuted",
    "c93_lzma",
    "c93_lzma_all",
    "c93_short_refuted",
    "c93_composite"
   ],
   "note": "Proved for any checksum and decompressor. False: sections that are too short, have a longer checksum header, or claim more than there is memory for are panics, and a Brotli section that claims more than its stream gives is padded with zeros."
  },
  {
   "property": "C94",
   "status": "partial",
   "theorems": [
    "c94_call",
    "c94_order",
    "c94_zero_refuted",
    "c94_leak_refuted",
    "c94_entry_partial",
    "c94_entry_refuted",
    "c94_disabled",
    "c94_entry_true",
    "c94_memory_types"
   ],
   "note": "The calls, their order and the memory types are proved. False: a string with a zero byte panics, every string given stays allocated, and with MM communication HOBs of which none is the user's the component reports success without having installed anything."
  },
  {
   "property": "C95",
   "status": "partial",
   "theorems": [
    "c95_selected",
    "c95_filters",
    "c95_verdict",
    "c95_run",
    "c95_fast",
    "c95_lines",
    "c95_params",
    "c95_none_refuted",
    "c95_debug_refuted"
   ],
   "note": "Proved for tests that do not panic, not in debug mode. False: in debug mode a test that changes the log's level changes it for good; and success does not mean that any test was run, although all are announced."
  },
  {
   "property": "C96",
   "status": "partial",
   "theorems": [
    "c96_round",
    "c96_recoverable",
    "c96_nullable",
    "c96_option_refuted",
    "c96_owned",
    "c96_freed",
    "c96_as_ref",
    "c96_twice_refuted"
   ],
   "note": "Proved wherever the address tells the pointer. False for options of raw pointers, of the unit and of options: two values have one address, and reading one back reads what Rust does not lay down, or too much. What is kept may be copied, so that a box can be got back twice."
  }
 ]
}