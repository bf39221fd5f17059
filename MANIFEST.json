{
 "claims": [
  {
   "property": "C01",
   "status": "proved",
   "theorems": [
    "C01_compile_permutation"
   ],
   "note": "Every successful compile order is a permutation of the registered passes, for all registrations."
  },
  {
   "property": "C02",
   "status": "proved",
   "theorems": [
    "C02_compile_topological",
    "C02_foreign_dependency_refuted"
   ],
   "note": "Topological for every closed acyclic relation. Extra finding (foreign_dependency_refuted): a dependency on a pass of another graph can reverse an order."
  },
  {
   "property": "C03",
   "status": "proved",
   "theorems": [
    "C03_compile_succeeds_iff",
    "C03_acyclic_always_compiles",
    "C03_compile_terminates"
   ],
   "note": "Success iff closed and acyclic when a dependency-free pass exists; acyclic graphs always compile; termination."
  },
  {
   "property": "C04",
   "status": "partial",
   "theorems": [
    "C04_cycle_reported_refuted",
    "C04_cycle_reported_partial"
   ],
   "note": "False of the code: a cycle in which every pass has a dependency is accepted silently (C04_cycle_reported_refuted). Proved: reported whenever some pass has no dependency."
  },
  {
   "property": "C05",
   "status": "proved",
   "theorems": [
    "C05_independent_passes_stable"
   ],
   "note": "Order of dependency-free passes is preserved by every successful compile."
  },
  {
   "property": "C06",
   "status": "proved",
   "theorems": [
    "C06_pass_ids_and_names",
    "C06_duplicate_rejected_without_effect"
   ],
   "note": "Histories of fewer than 2^32 calls (uint32_t ids wrap beyond)."
  },
  {
   "property": "C07",
   "status": "proved",
   "theorems": [
    "C07_create_group_idempotent",
    "C07_group_ids_unique"
   ],
   "note": "Histories of fewer than 2^32 calls."
  },
  {
   "property": "C08",
   "status": "proved",
   "theorems": [
    "C08_list_passes_complete"
   ],
   "note": "Histories of fewer than 2^32 calls."
  },
  {
   "property": "C09",
   "status": "proved",
   "theorems": [
    "C09_layout_round_trip"
   ],
   "note": "All non-3D view types, all valid ranges, all histories; 3D views are C13."
  },
  {
   "property": "C10",
   "status": "proved",
   "theorems": [
    "C10_frame_disjoint_range",
    "C10_frame_layout_and_access",
    "C10_frame_other_image",
    "C10_frame_stage_refuted"
   ],
   "note": "Full frame when the image is known; layout and access always; the stage reported for a never-tracked range is not stable (C10_frame_stage_refuted)."
  },
  {
   "property": "C11",
   "status": "proved",
   "theorems": [
    "C11_mixed_range_summary"
   ],
   "note": "Complete characterisation of the answer on mixed ranges."
  },
  {
   "property": "C12",
   "status": "partial",
   "theorems": [
    "C12_aspects_independent_refuted",
    "C12_aspect_ignored_partial"
   ],
   "note": "False of the code: the aspect is ignored by the tracking (refuted); proved that ranges differing by aspect only are identified."
  },
  {
   "property": "C13",
   "status": "partial",
   "theorems": [
    "C13_3d_round_trip_refuted",
    "C13_slices_shared_refuted",
    "C13_3d_round_trip_partial",
    "C13_slices_shared_partial"
   ],
   "note": "False of the code when depth >> mip is 0, and for multi-level partial 3D views (two refutations); proved under 0 < depth >> mip."
  },
  {
   "property": "C14",
   "status": "partial",
   "theorems": [
    "C14_import_complete_refuted",
    "C14_import_first_wins_partial",
    "C14_import_keeps_known_partial",
    "C14_import_unknown_partial",
    "C14_recording_starts_from_dependencies"
   ],
   "note": "False of the code at subresource granularity (refuted); proved per image."
  },
  {
   "property": "C15",
   "status": "proved",
   "theorems": [
    "C15_barrier_exactly_when_needed",
    "C15_state_after_barrier",
    "C15_barrier_idempotent"
   ],
   "note": "All histories (arbitrary record context), non-3D view types for the per-subresource effect."
  },
  {
   "property": "C16",
   "status": "partial",
   "theorems": [
    "C16_source_of_uniform_range_partial",
    "C16_partitioned_history_partial",
    "C16_mixed_ranges_refuted"
   ],
   "note": "False of the code for a range whose subresources are in different layouts (C16_mixed_ranges_refuted: the barrier starts from the smallest layout). Proved: after any history a uniform range starts from its real layout and an untouched one from the given layout; and for all histories whose ranges are pairwise equal or disjoint."
  },
  {
   "property": "C17",
   "status": "partial",
   "theorems": [
    "C17_storage_barrier_refuted",
    "C17_storage_barrier_after_other_layout_partial"
   ],
   "note": "False of the code: recordInto asks for makeLayoutState(GENERAL), i.e. no access and BOTTOM_OF_PIPE, so the second use records no barrier (refuted). Proved: a barrier is recorded when the image is known in another layout."
  },
  {
   "property": "C18",
   "status": "partial",
   "theorems": [
    "C18_buffer_barrier_exactly_when_needed",
    "C18_buffer_barrier_idempotent_partial",
    "C18_bottom_of_pipe_refuted"
   ],
   "note": "Everything proved except that asking again records nothing when the requested stage is BOTTOM_OF_PIPE, taken for unknown (C18_bottom_of_pipe_refuted)."
  },
  {
   "property": "C19",
   "status": "partial",
   "theorems": [
    "C19_write_then_read_storage_partial",
    "C19_write_after_write_refuted",
    "C19_sub_ranges_refuted",
    "C19_uniform_never_refuted"
   ],
   "note": "False of the code: write after write, disjoint sub-ranges, uniform buffers (three refutations). Proved: storage write then storage read always records a barrier on the read range with the right source and destination."
  },
  {
   "property": "C20",
   "status": "proved",
   "theorems": [
    "C20_implicit_actions_are_queues",
    "C20_enough_fuel"
   ],
   "note": "Refinement to one FIFO queue per view, for all histories of registrations and runs with arbitrary user actions; the fuel of the model is proved sufficient."
  },
  {
   "property": "C21",
   "status": "partial",
   "theorems": [
    "C21_view_keys_injective",
    "C21_buffer_keys_refuted",
    "C21_buffer_keys_partial"
   ],
   "note": "Proved injective for (pass, view) keys; false for buffers, whose key keeps the 32 low bits of the first handle (refuted, with the exact collision condition proved)."
  },
  {
   "property": "C22",
   "status": "proved",
   "theorems": [
    "C22_search_terminates",
    "C22_search_correct",
    "C22_cyclic_cache_refuted"
   ],
   "note": "Termination for every relation (even cyclic) and cache; correctness of every answer of every history on every acyclic (compiled) order. Extra finding: on a cyclic relation a wrong answer stays cached (C22_cyclic_cache_refuted)."
  },
  {
   "property": "C23",
   "status": "partial",
   "theorems": [
    "C23_producers_write_refuted",
    "C23_transfer_writer_refuted",
    "C23_storage_partial"
   ],
   "note": "False of the code: a pass that only reads the storage buffer is found as producer, and a transfer writer is missed (two refutations). Proved: exactly the first pass on the way declaring the buffer as storage, for every history."
  },
  {
   "property": "C24",
   "status": "partial",
   "theorems": [
    "C24_overlap_refuted",
    "C24_overlap_partial",
    "C24_other_images"
   ],
   "note": "False of the code: the layer count of the first range is used for both (missed and spurious overlaps, asymmetry). Proved: exact and symmetric for equal layer counts, complete / sound when the first count is larger / smaller."
  },
  {
   "property": "C25",
   "status": "partial",
   "theorems": [
    "C25_match_exact",
    "C25_reflexive",
    "C25_symmetric",
    "C25_same_subresources",
    "C25_transitive_refuted",
    "C25_transitive_partial"
   ],
   "note": "Reflexive (non-null aspect), symmetric, exact and same subresources proved; transitivity refuted (aspects) and proved for equal aspects."
  },
  {
   "property": "C26",
   "status": "proved",
   "theorems": [
    "C26_equality",
    "C26_buffer_equality",
    "C26_merge_view_transitions",
    "C26_merge_buffer_transitions",
    "C26_wanted_layout_ignored_refuted"
   ],
   "note": "For all lists of view and of buffer transitions. Extra finding: equality ignores the wanted layout of implicit attachments (C26_wanted_layout_ignored_refuted)."
  },
  {
   "property": "C27",
   "status": "proved",
   "theorems": [
    "C27_edges_sound",
    "C27_successors_once",
    "C27_all_reachable"
   ],
   "note": "For all compiled orders with well-formed identifiers and declarations."
  },
  {
   "property": "C28",
   "status": "partial",
   "theorems": [
    "C28_image_classification",
    "C28_image_access",
    "C28_implicit_layout",
    "C28_layout_supports_access_partial",
    "C28_transfer_inout_layout_refuted",
    "C28_image_layout",
    "C28_target_contents",
    "C28_image_binding",
    "C28_image_stage_partial",
    "C28_sampled_in_compute_refuted",
    "C28_buffer_classification",
    "C28_buffer_access_partial",
    "C28_implicit_buffer",
    "C28_uniform_access_refuted",
    "C28_buffer_binding",
    "C28_image_record",
    "C28_default_record"
   ],
   "note": "Proved for every declaration method; exceptions refuted: layout of addTransferInOutView, stage of a view sampled by a compute pass, access of uniform buffers."
  },
  {
   "property": "C29",
   "status": "partial",
   "theorems": [
    "C29_merged_covers_sources_partial",
    "C29_merged_covers_each_dimension",
    "C29_merged_type",
    "C29_merged_type_exactly",
    "C29_without_merge_refuted"
   ],
   "note": "Proved: the merged range is the hull of the sources when merging is asked; false when merging of a dimension is not asked and the views differ in it (refuted)."
  },
  {
   "property": "C30",
   "status": "proved",
   "theorems": [
    "C30_image_ids",
    "C30_view_ids",
    "C30_view_ids_dense",
    "C30_sources_lost_refuted"
   ],
   "note": "Identifiers of images and of views, for all histories of fewer than 2^32 calls. Extra finding: a merged view created with the same description as an existing view loses its list of sources (C30_sources_lost_refuted)."
  },
  {
   "property": "C31",
   "status": "partial",
   "theorems": [
    "C31_destroyed_at_most_once",
    "C31_exactly_once_partial",
    "C31_view_first_leak_refuted",
    "C31_destroyed_by_other_cache_refuted"
   ],
   "note": "At most once and causality (nothing destroyed that was not created, view before image ordering of the log) for all histories of all caches; exactly once for disciplined histories. False in general (two refutations): an image whose view is created first leaks, and a stale cache entry destroys an image another cache made."
  },
  {
   "property": "C32",
   "status": "partial",
   "theorems": [
    "C32_same_sampler",
    "C32_requested_description_partial",
    "C32_maxLod_partial",
    "C32_collision_refuted"
   ],
   "note": "Same description gives the same living sampler for all histories; the description is the requested one when the hash is injective on the requested set; false in general (pigeonhole, for every std::hash)."
  },
  {
   "property": "C33",
   "status": "proved",
   "theorems": [
    "C33_wait_list",
    "C33_single_wait"
   ],
   "note": "For all lists of waits."
  },
  {
   "property": "C34",
   "status": "partial",
   "theorems": [
    "C34_timeout_counts_as_wait_refuted",
    "C34_reset_never_pending_partial",
    "C34_second_reset_blocks_refuted"
   ],
   "note": "False of the code: a wait that times out is taken for a completed wait, so the fence is reset while pending; and a second reset without submission blocks (two refutations). Proved for all histories in which no wait times out."
  },
  {
   "property": "C35",
   "status": "partial",
   "theorems": [
    "C35_disabled_pass_records_nothing",
    "C35_enabled_pass_structure",
    "C35_attachments_ready_before_body_partial",
    "C35_overlapping_attachments_refuted",
    "C35_blocks_balanced"
   ],
   "note": "Proved in full except that the layouts hold before the body only for pairwise disjoint non-3D attachments without pending implicit action; false with overlapping attachments (refuted)."
  },
  {
   "property": "C36",
   "status": "proved",
   "theorems": [
    "C36_lookup_order",
    "C36_lookup_stable"
   ],
   "note": "Lookup order for all inputs; stability for non-3D views."
  },
  {
   "property": "C37",
   "status": "partial",
   "theorems": [
    "C37_second_image_refuted",
    "C37_later_consumer_refuted",
    "C37_other_level_refuted",
    "C37_next_consumer_partial",
    "C37_no_consumer",
    "C37_sound"
   ],
   "note": "False of the code (three refutations: second shared image, later consumer chosen, other level hides the consumer). Proved: the layout of the next consumer when it is the first pass sharing a layer and the image is the first shared; output or own layout when there is no consumer; in all cases the layout is one somebody asked for."
  },
  {
   "property": "C38",
   "status": "partial",
   "theorems": [
    "C38_fill_covers_range_partial",
    "C38_unaligned_offset_refuted"
   ],
   "note": "False for offsets that are not multiples of 4 (refuted); proved for all aligned offsets and all sizes."
  },
  {
   "property": "C39",
   "status": "proved",
   "theorems": [
    "C39_no_collision",
    "C39_measure_pair"
   ],
   "note": "For all numbers of passes and all histories of calls on all timers."
  },
  {
   "property": "C40",
   "status": "partial",
   "theorems": [
    "C40_unmade_measure_refuted",
    "C40_complete_measures_partial",
    "C40_reads_what_was_ended",
    "C40_nearest_float",
    "C40_duration_divides",
    "C40_duration_refuted",
    "C40_duration_partial",
    "C40_rounding_refuted",
    "C40_wrap_refuted",
    "C40_other_device_refuted"
   ],
   "note": "False of the code (refutations: a pass enabled between recording and notification; the duration is divided by the period, for every period of 2 ns or more and every measure of 4 ticks or more; the difference goes through a float; the wrap of a counter of fewer than 40 bits makes the conversion undefined; period of another device). Proved for all histories where a notified pass was recorded, and the duration for a period of 1 ns: exact below 2^24 ticks, within 2^-24 of the right one above. Binary32 rounding is modelled, and proved to be correct rounding."
  },
  {
   "property": "C41",
   "status": "partial",
   "theorems": [
    "C41_function_lost_refuted",
    "C41_other_disconnected_refuted",
    "C41_called_twice_refuted",
    "C41_bad_iterator_refuted",
    "C41_calls_partial",
    "C41_self_disconnect_partial",
    "C41_condition_needed"
   ],
   "note": "False of the code (four refutations: an index collision loses a function, disconnecting it removes another one, a function disconnecting a later one makes another be called twice, a function replacing itself uses an invalid iterator). Proved exact for all histories without hole in the indices and for functions disconnecting themselves; the condition is proved to be needed."
  },
  {
   "property": "C42",
   "status": "proved",
   "theorems": [
    "C42_first_usable",
    "C42_error_iff_none"
   ],
   "note": "For at most 32 memory types (the maximum of Vulkan)."
  },
  {
   "property": "C43",
   "status": "partial",
   "theorems": [
    "C43_whole_chain_partial",
    "C43_tracked_after",
    "C43_single_level_refuted",
    "C43_transfers_synchronised_partial"
   ],
   "note": "Proved for every image with at least two levels, by executing the recorded commands on a device with layouts and contents; false for a single level, which stays in TRANSFER_SRC (refuted)."
  },
  {
   "property": "C44",
   "status": "partial",
   "theorems": [
    "C44_render_pass_made",
    "C44_initial_layouts_partial",
    "C44_targets_declared",
    "C44_colour_outputs_in_order",
    "C44_two_depth_targets_refuted",
    "C44_undefined_stencil_loaded_refuted"
   ],
   "note": "The contents of the created render pass, the order of targets and the initial layouts are proved. False of the code for a depth and a stencil attachment in the same pass (only one is referenced) and for the stencil load operation of undefined contents."
  },
  {
   "property": "C45",
   "status": "partial",
   "theorems": [
    "C45_reused_when_valid_partial",
    "C45_reused_exactly",
    "C45_contents_cleared_again_refuted",
    "C45_stale_initial_layout_refuted",
    "C45_stale_final_layout_refuted"
   ],
   "note": "Proved: a reused render pass was made for the same pipeline states and expects the layouts the recording knows. False of the code for layouts known only from the previous frame or from the declared inputs, and for final layouts (three refutations)."
  },
  {
   "property": "C46",
   "status": "proved",
   "theorems": [
    "C46_pools_hold_their_sets",
    "C46_wraps_refuted"
   ],
   "note": "For every history, when the counts of descriptors of a pass fit in 32 bits (otherwise the product wraps: C46_wraps_refuted)."
  },
  {
   "property": "C47",
   "status": "partial",
   "theorems": [
    "C47_at_most_once",
    "C47_exactly_once_partial",
    "C47_graphics_exactly_once",
    "C47_shared_slot_refuted",
    "C47_reset_first_refuted",
    "C47_no_frame_refuted"
   ],
   "note": "At most one destruction always; exactly one for graphics passes, and for compute passes with one program per index reset after their first recording, when a frame follows the last reset. False otherwise: three refutations (compute slot shared by two indices, reset before the first recording, reset with no later frame)."
  },
  {
   "property": "C48",
   "status": "partial",
   "theorems": [
    "C48_own_callback_refuted",
    "C48_missing_callback_refuted",
    "C48_counts_partial",
    "C48_indirect"
   ],
   "note": "False of the code: the callback of X is called for Y and Z, even when it is not set (two refutations). Proved: exactly when the counts are right (iff), and the indirect case."
  },
  {
   "property": "C49",
   "status": "partial",
   "theorems": [
    "C49_image_copy",
    "C49_buffer_copy",
    "C49_blit_refuted",
    "C49_blit_partial",
    "C49_buffer_to_image_refuted",
    "C49_image_to_buffer_refuted",
    "C49_buffer_image_partial"
   ],
   "note": "Image and buffer copies proved. False of the code for blits with an offset (second corner is the size) and for buffer/image copies of a buffer range that does not start at 0 (refuted; exact conditions proved as iff)."
  },
  {
   "property": "C50",
   "status": "partial",
   "theorems": [
    "C50_current_and_next",
    "C50_previous_partial",
    "C50_previous_refuted",
    "C50_imported_previous",
    "C50_dependency_state_lost_refuted"
   ],
   "note": "Current and next states proved for all graphs. False of the code (two refutations): the previous state after a disabled pass, and the states of the graphs depended on are lost. Previous state proved when the preceding pass is enabled."
  },
  {
   "property": "C51",
   "status": "partial",
   "theorems": [
    "C51_known_after_refuted",
    "C51_access_change_ignored_refuted",
    "C51_known_after_partial"
   ],
   "note": "False of the code: nothing is tracked when the caller says the range is already in the layout, and a change of access alone is ignored (two refutations). Proved: layout and stage are the requested ones in all other cases."
  },
  {
   "property": "C52",
   "status": "partial",
   "theorems": [
    "C52_view_edges_complete_partial",
    "C52_buffer_edges_complete_partial",
    "C52_other_views_partial",
    "C52_sub_range_refuted",
    "C52_transfer_buffer_refuted"
   ],
   "note": "Proved for a view or storage buffer declared identically on both sides; false for a read range merely overlapping the written one and for transfer buffers (refuted)."
  },
  {
   "property": "C53",
   "status": "partial",
   "theorems": [
    "C53_lonely_attachment_refuted",
    "C53_inout_refuted",
    "C53_view_listed_partial",
    "C53_buffer_listed_partial",
    "C53_direction_refuted"
   ],
   "note": "False of the code (three refutations): the transition recorded is the last one of the pass, attachments both read and written are dropped, a read that is neither sampled nor a colour input is shown as going to nothing. Proved, views and buffers: every attachment of a pass that receives nothing, on an image or buffer only read or only written in the graph, is listed."
  },
  {
   "property": "C54",
   "status": "partial",
   "theorems": [
    "C54_merged_view_refuted",
    "C54_source_writer_partial"
   ],
   "note": "False of the code: the pass writing a merged view is never found (refuted). Proved: queries on merged views find exactly the writers of the sources."
  },
  {
   "property": "C55",
   "status": "proved",
   "theorems": [
    "C55_quad_sharing"
   ],
   "note": "For all histories of quad requests."
  },
  {
   "property": "C56",
   "status": "partial",
   "theorems": [
    "C56_quad_coordinates_partial",
    "C56_inverted_coordinates_refuted"
   ],
   "note": "Proved for texture coordinates that are not inverted; the inverted ones are off by one texture (refuted)."
  },
  {
   "property": "C57",
   "status": "partial",
   "theorems": [
    "C57_submissions_valid_partial",
    "C57_empty_graph_refuted",
    "C57_user_reset_blocks_refuted"
   ],
   "note": "Proved for every graph with at least one pass and all histories of record, run and waits with exceptions anywhere; false for an empty graph and after a user reset of the fence (two refutations)."
  },
  {
   "property": "C58",
   "status": "partial",
   "theorems": [
    "C58_returned_stage_partial",
    "C58_returned_stage_refuted"
   ],
   "note": "Proved when the last pass is enabled; otherwise the stage can be the one of a disabled pass (refuted)."
  },
  {
   "property": "C59",
   "status": "proved",
   "theorems": [
    "C59_lifetimes"
   ],
   "note": "For all legal histories with fewer than 2^32-1 connections per signal."
  },
  {
   "property": "C60",
   "status": "proved",
   "theorems": [
    "C60_buffer_copy_synchronised"
   ],
   "note": "For two distinct buffers, any context."
  },
  {
   "property": "C61",
   "status": "proved",
   "theorems": [
    "C61_quad_draw",
    "C61_mesh_draw"
   ],
   "note": "For all configurations."
  },
  {
   "property": "C62",
   "status": "proved",
   "theorems": [
    "C62_descriptor_objects"
   ],
   "note": "For every history."
  },
  {
   "property": "C63",
   "status": "proved",
   "theorems": [
    "C63_writes_match_layout",
    "C63_descriptor_layout",
    "C63_buffer_descriptor",
    "C63_one_view_for_all_indices"
   ],
   "note": "For every history with counts that fit in 32 bits and attachments declared through the API."
  },
  {
   "property": "C64",
   "status": "partial",
   "theorems": [
    "C64_one_graph_partial",
    "C64_two_graphs_refuted",
    "C64_mesh_rerecord_refuted"
   ],
   "note": "Proved for one graph per context with mesh re-recording out of a run only when idle. False of the code otherwise: two graphs sharing a context, and a mesh recorded again out of a run (two refutations)."
  },
  {
   "property": "C65",
   "status": "partial",
   "theorems": [
    "C65_report_partial",
    "C65_shared_handle_refuted"
   ],
   "note": "Proved when no two living objects have the same handle value. False when two living objects of different types share one (refuted)."
  },
  {
   "property": "C66",
   "status": "proved",
   "theorems": [
    "C66_in_order",
    "C66_clear_calls_all"
   ],
   "note": "For every history."
  },
  {
   "property": "C67",
   "status": "partial",
   "theorems": [
    "C67_commands_state_real_layouts_partial",
    "C67_plain_body",
    "C67_blit_body",
    "C67_buffer_to_image_body",
    "C67_image_to_buffer_body",
    "C67_copy_body",
    "C67_render_body_partial",
    "C67_overlapping_views_refuted"
   ],
   "note": "Proved for views that cut images in regions (no overlapping, 3D or merged views), implicit actions included, for plain, blit, copy and render bodies (fresh render pass; kept render passes are C100). False for overlapping views in general (refuted); those used in one layout at a time are C104."
  },
  {
   "property": "C68",
   "status": "partial",
   "theorems": [
    "C68_ready_on_device_partial",
    "C68_implicit_source_refuted"
   ],
   "note": "Same limits as C67, and the implicit actions run for an attachment must not touch the attachments declared before it (refuted otherwise)."
  },
  {
   "property": "C69",
   "status": "partial",
   "theorems": [
    "C69_every_frame_partial"
   ],
   "note": "Same limits as C67; kept render passes are C100."
  },
  {
   "property": "C70",
   "status": "partial",
   "theorems": [
    "C70_framebuffer_matches_render_pass",
    "C70_framebuffer_size_partial",
    "C70_bigger_than_attachment_refuted"
   ],
   "note": "One view per attachment, in order, proved for every history. The size is that of the first attachments only: false when a later one is smaller (refuted)."
  },
  {
   "property": "C71",
   "status": "proved",
   "theorems": [
    "C71_destroyed_exactly_once"
   ],
   "note": "For every history of recordings and indices."
  },
  {
   "property": "C72",
   "status": "partial",
   "theorems": [
    "C72_colour_accesses_covered_partial",
    "C72_depth_not_covered_refuted"
   ],
   "note": "Proved for colour accesses; false for depth/stencil accesses (refuted)."
  },
  {
   "property": "C73",
   "status": "partial",
   "theorems": [
    "C73_barrier_between_uses_partial",
    "C73_write_after_write_refuted",
    "C73_storage_writes_refuted",
    "C73_sampled_in_compute_refuted",
    "C73_render_then_sample_refuted"
   ],
   "note": "Proved for transfers and for sampling in graphics passes, between a use that writes and one that does not. False for two writes in a row, for storage images (their writes are never made available), for sampling in compute passes, and for a colour target sampled by the next render pass (all refuted)."
  },
  {
   "property": "C74",
   "status": "proved",
   "theorems": [
    "C74_recorded_in_dependency_order",
    "C74_acyclic_graphs_record"
   ],
   "note": "Composes the order of compile with the recording; each pass records one contiguous block."
  },
  {
   "property": "C75",
   "status": "partial",
   "theorems": [
    "C75_every_edge_is_drawn_once_partial",
    "C75_pass_is_in_its_group",
    "C75_lonely_pass_refuted",
    "C75_same_group_name_refuted",
    "C75_same_pass_name_refuted"
   ],
   "note": "Proved when all groups have different names (different also from the name of the graph), for the edges and for the passes that have an edge. Passes without an edge are not drawn, a group with the name of another one is written twice, and passes of two groups of the same name are one node (all refuted)."
  },
  {
   "property": "C76",
   "status": "partial",
   "theorems": [
    "C76_every_transition_is_shown_partial",
    "C76_graph_transitions_partial",
    "C76_stream_refuted",
    "C76_split_refuted"
   ],
   "note": "Proved for the text of the outermost group. Written to a stream, transitions are repeated; with one text per group, transitions from or to the outside are lost (both refuted)."
  },
  {
   "property": "C77",
   "status": "partial",
   "theorems": [
    "C77_pass_edges_partial",
    "C77_root_refuted"
   ],
   "note": "Proved between passes; always false for the edges of the root, which is moved after its address was used as a key (refuted for every graph)."
  },
  {
   "property": "C78",
   "status": "proved",
   "theorems": [
    "C78_calls_take_effect_at_once",
    "C78_no_race",
    "C78_no_deadlock",
    "C78_alone_is_the_sequential_model",
    "C78_starts_empty"
   ],
   "note": "Small-step semantics of the methods, with the four mutexes; simulation by a machine with instantaneous calls. Memory is sequentially consistent in the model, which C++ guarantees when there is no race (proved). The methods of ContextResourcesCache have no mutex and are not meant to be shared."
  },
  {
   "property": "C79",
   "status": "proved",
   "theorems": [
    "C79_image_ids",
    "C79_view_ids",
    "C79_answers"
   ],
   "note": "For less than 2^32 calls: the identifier is a 32 bits number."
  },
  {
   "property": "C80",
   "status": "proved",
   "theorems": [
    "C80_one_handle",
    "C80_one_image"
   ],
   "note": "With a driver that does not fail; see C81 for the failures."
  },
  {
   "property": "C81",
   "status": "partial",
   "theorems": [
    "C81_null_image_refuted",
    "C81_null_view_refuted",
    "C81_image_without_memory_refuted",
    "C81_quad_buffer_lost_refuted",
    "C81_failed_call_partial",
    "C81_failed_call_releases_partial"
   ],
   "note": "False: a null handle is given by the calls that follow a failed creation, an image whose memory could not be allocated is given afterwards, the buffer of a quad is lost (refuted). Proved: a failed call changes only the entries asked, destroys nothing, keeps track of the images it created, releases its mutexes."
  },
  {
   "property": "C82",
   "status": "partial",
   "theorems": [
    "C82_registry_partial",
    "C82_signal_race_refuted",
    "C82_signal_lost_slot_refuted",
    "C82_logger_race_refuted",
    "C82_logging_partial",
    "C82_registry_effect",
    "C82_signal_effect"
   ],
   "note": "Proved for the registry of the context, and for threads that only log. False for Signal (slots not protected: a connected function is lost) and for the logger while a callback is set (refuted)."
  },
  {
   "property": "C83",
   "status": "partial",
   "theorems": [
    "C83_contents_device",
    "C83_contents_reach_later_pass_partial",
    "C83_plain_body",
    "C83_render_body",
    "C83_render_target_known",
    "C83_copy_body",
    "C83_transfer_bodies",
    "C83_copied_contents_kept"
   ],
   "note": "For views of one region or without anything in common; the first pass declares the view with a layout, or is a render pass. False when a pass in between declares the view as an input target: its render pass does not store it (C101_depth_test_discards_refuted)."
  },
  {
   "property": "C84",
   "status": "partial",
   "theorems": [
    "C84_inputs_reach_pass_partial",
    "C84_implicit_source_refuted"
   ],
   "note": "For views of one region or without anything in common, declared as inputs by the passes. False for the source of an implicit copy or blit: the declared inputs are not looked up and its contents are discarded (refuted)."
  },
  {
   "property": "C85",
   "status": "partial",
   "theorems": [
    "C85_contents_kept_over_frames_partial",
    "C85_unused_frame_refuted"
   ],
   "note": "For views of one region or without anything in common, while every frame uses the view or its layout is a declared input. False otherwise: one frame with the passes disabled and the contents are discarded when they are enabled again (refuted). For the render passes see C45: the one made in the first frame clears in the frames that follow."
  },
  {
   "property": "C86",
   "status": "partial",
   "theorems": [
    "C86_layout_stage_access",
    "C86_unhandled_layouts_refuted",
    "C86_barriers_supported_partial",
    "C86_library_passes_partial",
    "C86_mips_partial",
    "C86_mixed_general_refuted",
    "C86_depth_only_implicit_refuted"
   ],
   "note": "For passes made of declared attachments, bodies of render passes, image and buffer copies and any body that keeps the record context coherent; the body of GenerateMipmaps when the state needed next is not shader accesses at the bottom of the pipe. A barrier starting from the GENERAL layout at the bottom of the pipe is left out: there shader accesses can be named without a stage (refuted). False for implicit attachments in the depth only and stencil only layouts (no stage) and FRAGMENT_DENSITY (refuted)."
  },
  {
   "property": "C87",
   "status": "partial",
   "theorems": [
    "C87_pipeline_state_partial",
    "C87_shader_writes_refuted"
   ],
   "note": "Exact characterisation for every mask; false for the writes of the shader stages, which are missing (refuted), as are uniform reads and input attachment reads."
  },
  {
   "property": "C88",
   "status": "proved",
   "theorems": [
    "C88_aspects_of_format",
    "C88_format_tests",
    "C88_codes_distinct"
   ],
   "note": "Formats 124 to 130 are those of Vulkan 1.0; the multi-planar formats, which the library does not know, count as colour formats."
  },
  {
   "property": "C89",
   "status": "partial",
   "theorems": [
    "C89_render_pass_partial",
    "C89_shared_pipeline_refuted",
    "C89_reset_refuted",
    "C89_mesh_refuted",
    "C89_made_anew",
    "C89_handle_reuse_refuted"
   ],
   "note": "For passes with one pass index, and for the recording that makes the render pass with any number. False with several indices, whose render passes differ: shared pipeline, reset of one index, mesh prepared for another index (three refutations); and when the driver reuses the handle of the destroyed render pass (C89_handle_reuse_refuted)."
  },
  {
   "property": "C90",
   "status": "partial",
   "theorems": [
    "C90_program_partial",
    "C90_creator",
    "C90_creator_refuted"
   ],
   "note": "For every history, without a program creator; with a creator the program is the one of the creator (proved) and the program given to resetPipeline is not used (refuted)."
  },
  {
   "property": "C91",
   "status": "partial",
   "theorems": [
    "C91_bound_together",
    "C91_reset_first_refuted",
    "C91_in_runs"
   ],
   "note": "Proved for every recording; false of the pipeline created by resetting a compute pass before its first recording, which has a null layout (refuted; it is never bound, see C47)."
  },
  {
   "property": "C92",
   "status": "partial",
   "theorems": [
    "C92_well_used_partial",
    "C92_exist_meanwhile",
    "C92_not_waited_refuted",
    "C92_all_destroyed_partial"
   ],
   "note": "proved for all histories in which the user waits for the fence of a graph before destroying it: the destructor does not wait itself (C92_not_waited_refuted); everything is destroyed unless a construction throws once its semaphore exists (see C93). The destruction of an object by the driver itself and device loss are not modelled."
  },
  {
   "property": "C93",
   "status": "partial",
   "theorems": [
    "C93_exactly_the_semaphore_partial",
    "C93_leak_refuted",
    "C93_pass_leaves_nothing"
   ],
   "note": "nothing is left by a pass, nor by a graph whose construction throws before its semaphore is created; a later throw leaves exactly the semaphore of the graph (C93_exactly_the_semaphore_partial), since the destructor of a half-built object is not run: C93_leak_refuted."
  },
  {
   "property": "C94",
   "status": "partial",
   "theorems": [
    "C94_living_registered",
    "C94_only_buffers_stale",
    "C94_exact_partial",
    "C94_stale_buffer_refuted"
   ],
   "note": "exact (and no leak reported) as long as no construction throws once its semaphore exists; otherwise the registry also keeps command buffers that were freed with their pool (C94_only_buffers_stale, C94_stale_buffer_refuted)."
  },
  {
   "property": "C95",
   "status": "partial",
   "theorems": [
    "C95_not_destroyed_in_flight_partial",
    "C95_runs_alone",
    "C95_re_recorded_output_refuted",
    "C95_re_recorded_output_always_refuted",
    "C95_not_waited_refuted"
   ],
   "note": "proved for all histories without re-recording (C95_runs_alone), and with re-recordings when the attachments rendered to are declared as inputs too, the user waiting for the graph before destroying it (C95_not_destroyed_in_flight_partial). False otherwise: re-recording a pass with an attachment that is only an output and whose layout is known always destroys a framebuffer in use (C95_re_recorded_output_always_refuted), and the destructor does not wait (C95_not_waited_refuted). A re-recording is taken with the context the recording had when the render pass is looked up."
  },
  {
   "property": "C96",
   "status": "proved",
   "theorems": [
    "C96_draw",
    "C96_same_render_pass_partial",
    "C96_formats_refuted"
   ],
   "note": "Full claim with its hypothesis named: the views of a target have one format for all the pass indices (C96_draw; the counterexample without it is C96_formats_refuted). C96_same_render_pass_partial gives the very same render pass when pipelines are not shared between indices; with shared pipelines only compatibility holds. Compatibility is formats and references; sample counts are always 1 in the code."
  },
  {
   "property": "C97",
   "status": "partial",
   "theorems": [
    "C97_states",
    "C97_area_partial",
    "C97_default_size_refuted"
   ],
   "note": "Blend states, viewport and scissor proved for all histories; the area is proved inside and whole under the hypotheses of C97_area_partial. Refuted when the render size is not configured: the viewport and the scissor are then empty although the render area is that of the attachments (C97_default_size_refuted). Conversions to the floats of the viewport taken as exact."
  },
  {
   "property": "C98",
   "status": "partial",
   "theorems": [
    "C98_topology",
    "C98_triangles",
    "C98_primitive_count_refuted",
    "C98_default_count_refuted"
   ],
   "note": "Topologies, cull mode (the one at construction) and triangles counted for all configurations; refuted: the primitive count is given to vkCmdDrawIndexed as the index count, so a third of the primitives is drawn (C98_primitive_count_refuted), and with the default callbacks nothing is drawn."
  },
  {
   "property": "C99",
   "status": "proved",
   "theorems": [
    "C99_covers",
    "C99_layout"
   ],
   "note": "Over the rationals; the floats written are small integers, exact. The texture coordinates are C56."
  },
  {
   "property": "C100",
   "status": "partial",
   "theorems": [
    "C100_render_passes_kept_partial",
    "C100_bodies"
   ],
   "note": "Same limits as C67 (views that cut images in regions). The input targets of a render pass recorded again must be known from the dependencies or brought by an earlier enabled pass of the frame; without that the claim is false (C45_stale_initial_layout_refuted)."
  },
  {
   "property": "C101",
   "status": "partial",
   "theorems": [
    "C101_written_targets_stored_partial",
    "C101_inout_targets_kept_partial",
    "C101_drawn_reaches_reader_partial",
    "C101_input_targets_refuted",
    "C101_depth_test_discards_refuted",
    "C101_other_aspect_refuted"
   ],
   "note": "Proved for targets that are written (output or in/out) by a method that names all the aspects of the view, from the end of the render pass to the body of the reader. False of the code for targets declared as inputs, never stored whatever the method (C101_input_targets_refuted, C101_depth_test_discards_refuted: a depth test discards the depth), and for the other aspect of a depth and stencil image, neither loaded nor stored (C101_other_aspect_refuted)."
  },
  {
   "property": "C102",
   "status": "partial",
   "theorems": [
    "C102_no_refusal",
    "C102_reported_partial",
    "C102_destroyed_at_most_once_partial",
    "C102_others_unaffected_partial",
    "C102_view_refuted",
    "C102_image_refuted",
    "C102_image_without_memory_refuted",
    "C102_sampler_refuted",
    "C102_quad_refuted",
    "C102_new_cache_partial"
   ],
   "note": "Proved: reports, at most one destruction, independence of the other objects, identity with C31 without refusal, and samplers and quads created again once their cache is destroyed. The retry is false of the code, for every history: a refused view or image is null for ever for every cache (C102_view_refuted, C102_image_refuted), an image whose memory was refused is returned for ever without memory and never destroyed (C102_image_without_memory_refuted), a sampler is null and a quad a null reference as long as the cache lives (C102_sampler_refuted, C102_quad_refuted). C81 is the single call on the handler, with the mutexes."
  },
  {
   "property": "C103",
   "status": "partial",
   "theorems": [
    "C103_pipeline",
    "C103_quad",
    "C103_quad_draws",
    "C103_quad_viewport",
    "C103_mesh",
    "C103_mesh_viewport",
    "C103_compute_partial",
    "C103_null_index_refuted",
    "C103_runnable_partial",
    "C103_last_action_refuted",
    "C103_order"
   ],
   "note": "Proved for every option but one: of two implicit actions given for one view the first counts (C103_runnable_partial, C103_last_action_refuted). A null index variable is the index 0 of a quad pass but is read by a compute pass (C103_null_index_refuted)."
  },
  {
   "property": "C104",
   "status": "partial",
   "theorems": [
    "C104_overlapping_views_partial",
    "C104_ready_partial",
    "C104_every_frame_partial",
    "C104_plain_body",
    "C104_blit_body",
    "C104_buffer_to_image_body",
    "C104_image_to_buffer_body",
    "C104_copy_body",
    "C104_render_body_partial",
    "C104_uneven_view_refuted"
   ],
   "note": "No implicit action, no 3D image; targets of a render pass are plain and separate, its render pass being made by the recording or expecting nothing. A view used while its subresources are in different layouts gives a wrong old layout (C104_uneven_view_refuted)."
  },
  {
   "property": "C105",
   "status": "partial",
   "theorems": [
    "C105_reported_partial",
    "C105_message",
    "C105_survivors",
    "C105_silent_partial",
    "C105_disciplined_partial",
    "C105_reported_never_created_refuted",
    "C105_lost_buffer_refuted"
   ],
   "note": "Proved when the driver refuses nothing. With refusals it is false both ways: an image the driver never created is reported, the buffer of a quad whose memory was refused is lost without a message (refuted)."
  },
  {
   "property": "C106",
   "status": "partial",
   "theorems": [
    "C106_colours",
    "C106_period",
    "C106_distinct",
    "C106_gradual",
    "C106_calls",
    "C106_threads_refuted"
   ],
   "note": "Colours, period (81 labels) and difference proved with binary32 rounding. The hue is an unprotected static variable: two threads that record their own graphs race (C106_threads_refuted)."
  },
  {
   "property": "C107",
   "status": "partial",
   "theorems": [
    "C107_contents_delivered_partial",
    "C107_delivered_to_dependent_pass_partial"
   ],
   "note": "C107_contents_delivered_partial proves order, layouts, legality and contents for every kind of producer and consumer, implicit actions included, on a device that keeps a content for each aspect of each subresource, where views cut images in regions. The barrier part is proved for an image written by a transfer and read by a transfer or by sampling in a graphics pass, in graphs without implicit actions; for storage images, sampling in compute and render targets it is false of the code (the refutations of C73)."
  },
  {
   "property": "C108",
   "status": "partial",
   "theorems": [
    "C108_declared_states",
    "C108_undeclared",
    "C108_final_layouts",
    "C108_output_honoured_partial",
    "C108_output_ignored_refuted",
    "C108_chained_graphs_refuted",
    "C108_late_output_refuted"
   ],
   "note": "Declarations and final layouts proved in full (final layouts for recordings of sound passes whose views cut the images in regions). A declared output is honoured when the last pass that uses the image is a render pass made by the recording that draws to it (C108_output_honoured_partial); it is not honoured for an image left by a storage or transfer pass, so that two graphs chained by their declarations record a wrong barrier, nor when it is declared after a first recording (refuted)."
  },
  {
   "property": "C109",
   "status": "partial",
   "theorems": [
    "C109_full_name_is_the_path",
    "C109_full_name_stable",
    "C109_full_name_identifies_partial",
    "C109_slash_refuted",
    "C109_group_name_refuted"
   ],
   "note": "uniqueness proved when no group or pass name contains a slash; with slashes two passes may share a full name (refuted), and the shorter name group/pass used for nodes and registrations is shared by passes of homonymous groups (refuted)"
  },
  {
   "property": "C110",
   "status": "partial",
   "theorems": [
    "C110_barriers_linked",
    "C110_linked_across_graphs",
    "C110_last_use_partial",
    "C110_not_used",
    "C110_uniform_refuted",
    "C110_recorded_again_refuted"
   ],
   "note": "the chain of barriers, its continuation in a depending graph, the unused buffers, and the final state for storage, transfer and implicit uses are proved; false for uniform uses, which are not in the final state, and between two recordings of a same graph (both refuted)"
  },
  {
   "property": "C111",
   "status": "partial",
   "theorems": [
    "C111_mip_extent_partial",
    "C111_exhausted_dimension_refuted",
    "C111_2d_depth_refuted",
    "C111_followed_slices_partial",
    "C111_small_level_discarded_refuted"
   ],
   "note": "proved when no dimension is exhausted before the level; else the dimension is given as 0 (in particular the depth of every level but the first of 2D images), and a level of a 3D image whose depth is exhausted is never followed: every pass that reads it records a transition from UNDEFINED, which discards it (refuted for every history)"
  },
  {
   "property": "C112",
   "status": "partial",
   "theorems": [
    "C112_last_run_shown",
    "C112_once",
    "C112_in_order_partial",
    "C112_recorded_since_refuted",
    "C112_order_refuted"
   ],
   "note": "latest measure, no repetition and order proved for graphs recorded by their runs only (no repetition: always); a recording between the run and the question gives 0 or an older measure, whatever happened before (refuted)"
  },
  {
   "property": "C113",
   "status": "partial",
   "theorems": [
    "C113_same_context",
    "C113_same_commands_partial",
    "C113_out_of_range",
    "C113_graph_unaffected",
    "C113_first_frame_refuted",
    "C113_not_kept",
    "C113_not_recorded_refuted",
    "C113_not_executed"
   ],
   "note": "the context, the independence of the recordings of the graph and the fact that it is not executed are proved for every history; the same commands for a settled graph and regular views, without pending implicit actions (after the first frame the commands differ: refuted; a pass that is not resettable, or not recorded yet, is recorded as the first of a graph)"
  },
  {
   "property": "C114",
   "status": "partial",
   "theorems": [
    "C114_indentation_follows_blocks_partial",
    "C114_transitions_are_indented_partial",
    "C114_names_are_read_back_partial",
    "C114_only_blanks_are_added",
    "C114_first_indentation_refuted",
    "C114_end_of_line_refuted"
   ],
   "note": "Proved for names without an end of line and groups with different names (both needed: C114_end_of_line_refuted, C75_same_group_name_refuted); the transitions are proved for the text of the outermost group, not split. Shapes, identifiers and colours are given for each line."
  },
  {
   "property": "C115",
   "status": "partial",
   "theorems": [
    "C115_does_what_is_asked_partial",
    "C115_one_outcome",
    "C115_whole_copy_iff_one_layer",
    "C115_blit_iff_no_offset",
    "C115_left_in_final_layout",
    "C115_layers_refuted",
    "C115_blit_offset_refuted"
   ],
   "note": "Proved for views of one layer and blits whose two regions start at (0, 0), and exactly for those (both equivalences are theorems; with several layers only the first is copied, and the second corner of a blit is its size: refuted). The final layout is proved for every action and every view that is not 3D. The clear values are not modelled; actions written by the user are arbitrary functions elsewhere (C20, C67, C83)."
  },
  {
   "property": "C116",
   "status": "partial",
   "theorems": [
    "C116_accepted_partial",
    "C116_failed",
    "C116_sound_views_pass",
    "C116_other_views_refuted",
    "C116_extra_aspect_refuted",
    "C116_wrong_target_refuted"
   ],
   "note": "Sound declarations pass, and what passes or fails is characterised exactly: only the first view is looked at, and it is enough that it names one aspect of its format, whatever the method (other views, aspects in excess and the aspect of the target are not checked: refuted for every method). An empty list of views is undefined behaviour."
  }
 ]
}