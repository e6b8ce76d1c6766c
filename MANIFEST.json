{
 "claims": [
  {
   "property": "C01",
   "status": "proved",
   "theorems": [
    "base64_encode_decode",
    "base64_stream_roundtrip"
   ],
   "note": ""
  },
  {
   "property": "C02",
   "status": "proved",
   "theorems": [
    "base64_decode_7bit",
    "base64_decode_no_ub_refuted",
    "base64_decode_short_refuted"
   ],
   "note": "Decoding is defined for 7-bit input; a byte above 127 indexes the table out of bounds and a short string is read past its end, so the unrestricted claim is refuted."
  },
  {
   "property": "C06",
   "status": "proved",
   "theorems": [
    "linear_owners_are_laid_out",
    "linear_owners_bijective",
    "linear_partition_sizes_balanced",
    "find_total_globals_least"
   ],
   "note": ""
  },
  {
   "property": "C07",
   "status": "proved",
   "theorems": [
    "int128_of_int64",
    "int128_add",
    "int128_sub",
    "int128_neg",
    "int128_shr",
    "int128_lt",
    "int128_eq",
    "int128_add_full_range_refuted"
   ],
   "note": "Addition is exact whenever the high words do not overflow before the carry; the unrestricted claim is refuted."
  },
  {
   "property": "C08",
   "status": "proved",
   "theorems": [
    "int128_to_double",
    "repro_sum_order_independent",
    "repro_sum_exact_on_grid",
    "repro_sum_subnormal_refuted"
   ],
   "note": ""
  },
  {
   "property": "C10",
   "status": "proved",
   "theorems": [
    "serial_scan_prefix",
    "offset_scan_size",
    "offset_scan_prefix_sums",
    "fill_right_running_max",
    "openmp_scan_is_serial_scan",
    "openmp_scan_defined",
    "openmp_scan_many_threads_refuted"
   ],
   "note": ""
  },
  {
   "property": "C48",
   "status": "proved",
   "theorems": [
    "parallel_for_deterministic",
    "parallel_for_serial_schedule"
   ],
   "note": ""
  },
  {
   "property": "C11",
   "status": "proved",
   "theorems": [
    "unmap_gathers",
    "unmap_range_gathers",
    "map_into_scatters",
    "map_into_checks_size",
    "map_into_range_copies",
    "map_onto_scatters",
    "add_into_adds",
    "map_value_into_stores",
    "permute_then_unmap",
    "unmap_then_permute",
    "invert_permutation_inverse",
    "compound_maps_composes",
    "invert_injective_map_left_inverse",
    "mark_image_exact",
    "collect_marked_exact",
    "invert_marks_flips"
   ],
   "note": ""
  },
  {
   "property": "C12",
   "status": "proved",
   "theorems": [
    "invert_map_by_sorting_inverts",
    "invert_map_by_atomics_inverts"
   ],
   "note": ""
  },
  {
   "property": "C13",
   "status": "proved",
   "theorems": [
    "sort_by_keys_sorts",
    "sort_by_keys_only",
    "sort_by_keys_refuses_width",
    "sort_by_keys_refuses_remainder"
   ],
   "note": "std::stable_sort (or its parallel equivalent) is modelled by its contract."
  },
  {
   "property": "C14",
   "status": "proved",
   "theorems": [
    "sort_small_range_sorts"
   ],
   "note": "Entries up to INT32_MAX."
  },
  {
   "property": "C15",
   "status": "proved",
   "theorems": [
    "degrees_of_offset_scan",
    "offset_scan_of_degrees",
    "offset_scan_is_fan",
    "invert_fan_lists_groups",
    "invert_funnel_recovers",
    "expand_copies",
    "fan_reduce_reduces",
    "fan_reduce_narrow_sum_refuted"
   ],
   "note": ""
  },
  {
   "property": "C03",
   "status": "proved",
   "theorems": [
    "pool_blocks_live_and_distinct",
    "pool_allocate_fresh",
    "pool_allocate_refused",
    "pool_deallocate_checks",
    "pool_destroy_releases_all",
    "pool_no_ub",
    "pool_huge_size_refuted"
   ],
   "note": ""
  },
  {
   "property": "C04",
   "status": "proved",
   "theorems": [
    "storage_freed_exactly_once",
    "parallel_copy_keeps_size",
    "self_assignment_refuted",
    "self_move_refuted",
    "parallel_move_leaks_refuted",
    "identity_size_refuted"
   ],
   "note": "Assignments between different variables; self-assignment and moves inside a parallel region are refuted."
  },
  {
   "property": "C05",
   "status": "proved",
   "theorems": [
    "tracked_total_exact",
    "tracked_list_exact",
    "tracked_list_refuted",
    "tracking_use_after_free_refuted"
   ],
   "note": "The byte total is exact for every history; the list is exact for stack-like histories of at most two live storages; beyond that the list is wrong and the refutations show it."
  },
  {
   "property": "C16",
   "status": "proved",
   "theorems": [
    "add_edges_concatenates",
    "add_edges_rejects_mismatch",
    "wf_graph_has_targets",
    "unmap_graph_selects",
    "filter_graph_edges_keeps_marked",
    "filter_graph_edges_refuted",
    "filter_graph_nodes_induces",
    "identity_graph_loops",
    "add_self_edges_adds_loop"
   ],
   "note": ""
  },
  {
   "property": "C22",
   "status": "proved",
   "theorems": [
    "down_template_in_range",
    "side_vertices_distinct",
    "sides_differ",
    "side_of_side_is_side",
    "up_template_sound",
    "up_template_complete",
    "faces_oriented_coherently",
    "opposite_is_complement"
   ],
   "note": "Finite tables, checked exhaustively by the kernel."
  },
  {
   "property": "C51",
   "status": "proved",
   "theorems": [
    "split_children_are_subcubes",
    "split_interior_child_is_dual"
   ],
   "note": ""
  },
  {
   "property": "C17",
   "status": "proved",
   "theorems": [
    "code_round_trip",
    "code_round_trip_refuted",
    "align_adj_moves_vertices",
    "align_adj_moves_edges",
    "invert_alignment_undoes",
    "compound_alignments_composes",
    "align_adj_same_polygon",
    "align_adj_reaches_polygon",
    "align_adj_faithful",
    "align_ev2v_aligns_rows"
   ],
   "note": ""
  },
  {
   "property": "C18",
   "status": "proved",
   "theorems": [
    "find_unique_finds_each_side_once",
    "same_polygon_is_same_set",
    "find_unique_rows"
   ],
   "note": ""
  },
  {
   "property": "C19",
   "status": "proved",
   "theorems": [
    "invert_adj_lists_uses",
    "invert_adj_schedule_independent",
    "upward_code_names_use",
    "unmap_adjacency_selects"
   ],
   "note": ""
  },
  {
   "property": "C20",
   "status": "proved",
   "theorems": [
    "find_matches_finds_entity",
    "find_matches_takes_first",
    "reflect_down_finds_sides",
    "reflect_down_refuses",
    "find_unique_then_reflect_down"
   ],
   "note": ""
  },
  {
   "property": "C21",
   "status": "proved",
   "theorems": [
    "transit_to_vertices",
    "transit_to_edges"
   ],
   "note": ""
  },
  {
   "property": "C42",
   "status": "proved",
   "theorems": [
    "coalesce_empty",
    "coalesce_reads_outside",
    "coalesce_concatenates_refuted"
   ],
   "note": "The property as revised; the intended contract is refuted."
  },
  {
   "property": "C52",
   "status": "proved",
   "theorems": [
    "equality_any_backend",
    "get_max_any_backend",
    "get_min_any_backend",
    "find_last_any_backend",
    "is_sorted_any_backend",
    "get_sum_any_backend",
    "get_sum_order_refuted",
    "custom_reduction_refuted"
   ],
   "note": ""
  },
  {
   "property": "C53",
   "status": "proved",
   "theorems": [
    "set_component_sets",
    "get_component_reads",
    "interleave_components",
    "interleave_refuses",
    "ternary_each_selects",
    "ternary_each_empty_refuted"
   ],
   "note": ""
  },
  {
   "property": "C47",
   "status": "proved",
   "theorems": [
    "mark_down_marks",
    "mark_up_marks",
    "mark_up_all_marks",
    "exposed_sides_marked"
   ],
   "note": ""
  },
  {
   "property": "C54",
   "status": "proved",
   "theorems": [
    "binary_search_finds",
    "binary_search_large_refuted",
    "class_closures_marked"
   ],
   "note": ""
  },
  {
   "property": "C55",
   "status": "proved",
   "theorems": [
    "dual_layers_are_walks",
    "dual_layers_keep_marks_refuted",
    "dual_layers_lone_element_refuted"
   ],
   "note": "One rank."
  },
  {
   "property": "C56",
   "status": "proved",
   "theorems": [
    "invert_adj_gives_uses",
    "verts_across_edges_lists",
    "verts_across_edges_joins",
    "edges_across_tris_lists",
    "edges_across_tets_lists",
    "elements_across_sides_lists",
    "neighbours_share_side"
   ],
   "note": ""
  },
  {
   "property": "C49",
   "status": "proved",
   "theorems": [
    "bcast_string_cuts_or_pads",
    "bcast_string_delivers",
    "bcast_string_delivers_only",
    "bcast_string_any_root_refuted"
   ],
   "note": "The property as revised: the length is broadcast from rank 0, the characters from the root."
  },
  {
   "property": "C33",
   "status": "proved",
   "theorems": [
    "future_get_waits",
    "future_completed_is_inverted",
    "future_of_data",
    "future_completed_refuted"
   ],
   "note": "The property as revised; the intended contract of completed() is refuted."
  },
  {
   "property": "C24",
   "status": "proved",
   "theorems": [
    "senders_discovered",
    "senders_discovery_never_stuck"
   ],
   "note": "Any number of successive calls on one communicator."
  },
  {
   "property": "C50",
   "status": "proved",
   "theorems": [
    "bi_partition_balances",
    "bi_partition_refuses_odd"
   ],
   "note": ""
  },
  {
   "property": "C44",
   "status": "proved",
   "theorems": [
    "path_filename",
    "path_parent_and_filename",
    "path_parent_of_name",
    "path_parent_shorter_refuted",
    "path_join_filename",
    "path_join_parent",
    "path_join_empty",
    "path_stem_extension",
    "path_extension"
   ],
   "note": "POSIX separator."
  },
  {
   "property": "C45",
   "status": "proved",
   "theorems": [
    "remove_all_removes_exactly",
    "remove_all_inside_only_refuted",
    "remove_all_succeeds_refuted",
    "status_file_types"
   ],
   "note": "The property as revised; deletion outside the tree is exhibited."
  },
  {
   "property": "C46",
   "status": "proved",
   "theorems": [
    "profile_is_call_tree",
    "profile_excess_stop_undefined",
    "profile_walk_visits_once",
    "profile_depths",
    "profile_invert"
   ],
   "note": "Clock readings are exact integers."
  },
  {
   "property": "C43",
   "status": "proved",
   "theorems": [
    "xml_tag_parses",
    "xml_tag_only",
    "xml_read_tag",
    "xml_self_closing_refuted"
   ],
   "note": "The property as revised, with the exact language accepted."
  },
  {
   "property": "C36",
   "status": "proved",
   "theorems": [
    "swap_tables_enumerate_triangulations"
   ],
   "note": "Tables are generated from the header by tools/swap_tables.py; a triangulation is specified by non-crossing diagonals, its triangles by adjacency, independently of the tables."
  },
  {
   "property": "C37",
   "status": "proved",
   "theorems": [
    "swap3d_refills_cavities"
   ],
   "note": "All keys of one pass, any listing order and alignment of the old tets, any commutative ring of coordinates. Also: product triangles are exactly the interior faces and product edges exactly the new vertex pairs."
  },
  {
   "property": "C38",
   "status": "proved",
   "theorems": [
    "swap_choice_is_best",
    "swap_choice_judges_all",
    "swap_choice_quality_is_of_written_tets"
   ],
   "note": "Arbitrary quality and length functions valued in Z standing for the reals (only comparisons are used; NaN is not modelled)."
  },
  {
   "property": "C40",
   "status": "proved",
   "theorems": [
    "edge_loop_is_cyclic"
   ],
   "note": "Loops of 3 to 7 tets; larger ones are not ordered by the code (MAX_EDGE_SWAP)."
  },
  {
   "property": "C39",
   "status": "proved",
   "theorems": [
    "swap2d_keeps_area_and_boundary"
   ],
   "note": "Exact arithmetic over every commutative ring; every alignment of the two triangles."
  },
  {
   "property": "C41",
   "status": "proved",
   "theorems": [
    "collapse_removes",
    "collapse_target",
    "collapse_retargets"
   ],
   "note": "Every mesh dimension 1-3, every mesh whose stored adjacencies are consistent, every set of collapses."
  },
  {
   "property": "C35",
   "status": "proved",
   "theorems": [
    "split_volume",
    "split_area",
    "split_products"
   ],
   "note": "Exact arithmetic over every commutative ring; every alignment; also the products of all lower dimensions."
  },
  {
   "property": "C34",
   "status": "proved",
   "theorems": [
    "adapt_numbering",
    "kept_numbering",
    "adapt_numbering_dependent_keys_refuted"
   ],
   "note": "Local numbers on one rank; ownership and global numbers are not part of it. Atomic additions are made in order (they commute)."
  },
  {
   "property": "C09",
   "status": "proved",
   "theorems": [
    "transpose_undone",
    "axes_undone",
    "cell_has_position",
    "cells_differ_positions_differ",
    "position_has_cell",
    "curve_starts_at_origin",
    "curve_steps_to_neighbours",
    "cell_outside_is_clamped",
    "points_sorted_along_curve"
   ],
   "note": "the loops are modelled on 64-bit words; the floating point map from coordinates to cells is not modelled, the theorems start at the integer cells"
  },
  {
   "property": "C23",
   "status": "proved",
   "theorems": [
    "dist_atomics_inverter",
    "invert_map_by_atomics_can_finish",
    "dist_made",
    "dist_delivers",
    "dist_returns",
    "dist_reduces",
    "dist_remembers",
    "dist_invert_involutive",
    "dist_ranks_made",
    "dist_ranks_delivers",
    "dist_ranks_round_trip",
    "dist_globals_deliver"
   ],
   "note": "Collectives act on the vector of all ranks (M_Dist.v); rank counts up to 2^31 because the ranks are sorted as 32-bit numbers. iexch and change_comm are not modelled."
  },
  {
   "property": "C25",
   "status": "proved",
   "theorems": [
    "update_ownership_balances",
    "update_ownership_obeys",
    "update_ownership_consistent",
    "owners_from_globals_balances",
    "owners_from_globals_obeys",
    "reduce_data_to_owners_copies"
   ],
   "note": ""
  },
  {
   "property": "C26",
   "status": "proved",
   "theorems": [
    "globals_from_owners_numbers",
    "globals_from_owners_unshared",
    "owned_list_complete",
    "nglobal_ents_counts",
    "sync_array_agrees",
    "reduce_array_joins",
    "owners_from_globals_proper"
   ],
   "note": ""
  },
  {
   "property": "C27",
   "status": "proved",
   "theorems": [
    "find_indset_greedy",
    "greedy_independent_maximal",
    "greedy_is_unique",
    "find_indset_nan_refuted"
   ],
   "note": "The wrapper that builds the star graph and checks owners_have_all_upward is not modelled; that the owner sees all neighbours is part of the hypothesis 'presents'."
  },
  {
   "property": "C30",
   "status": "proved",
   "theorems": [
    "tags_hold_last_stored",
    "tags_numbered_in_order",
    "add_tag_succeeds"
   ],
   "note": "get_tag by number accepts i = ntags: shown in tags_numbered_in_order."
  },
  {
   "property": "C31",
   "status": "proved",
   "theorems": [
    "asked_quantities_fresh",
    "asked_lengths_stale_after_remove_refuted",
    "asked_lengths_stale_after_internal_refuted"
   ],
   "note": "The measuring functions are parameters."
  },
  {
   "property": "C32",
   "status": "proved",
   "theorems": [
    "asked_adjacency_means",
    "asked_adjacency_history_independent",
    "asked_adjacency_answered",
    "asked_adjacency_can_finish",
    "asked_faces_refused",
    "adjacency_never_replaced",
    "asked_graph_means",
    "asked_graph_answered",
    "asked_parents_current",
    "asked_children_first",
    "asked_children_current_refuted",
    "asked_children_of_vertices_refuted"
   ],
   "note": "Stale children after set_parents and the out-of-bounds request for children of vertices are the _refuted theorems."
  },
  {
   "property": "C28",
   "status": "proved",
   "theorems": [
    "value_round_trip",
    "array_round_trip",
    "string_round_trip",
    "mesh_round_trip",
    "mesh_second_round_trip",
    "mesh_file_portable",
    "compressed_refused_without_zlib",
    "other_rank_refused"
   ],
   "note": "Streams, not directories of parts; zlib is a parameter assumed to restore what it compressed. Reading versions before the latest is modelled but has no writer to compare with."
  },
  {
   "property": "C29",
   "status": "proved",
   "theorems": [
    "truncated_mesh_plain",
    "truncated_mesh",
    "truncated_mesh_accepted_refuted"
   ],
   "note": "Using an uninitialised variable is undefined behaviour in the model."
  },
  {
   "property": "C57",
   "status": "proved",
   "theorems": [
    "unite_recognises",
    "concat_recognises",
    "plus_recognises",
    "star_recognises",
    "maybe_recognises",
    "maybe_recognises_any_refuted"
   ],
   "note": "Regular expressions only build automata whose accepting states have no moves."
  },
  {
   "property": "C58",
   "status": "proved",
   "theorems": [
    "make_deterministic_least_token"
   ],
   "note": ""
  },
  {
   "property": "C59",
   "status": "proved",
   "theorems": [
    "simplify_preserves",
    "simplify_least_refuted"
   ],
   "note": ""
  },
  {
   "property": "C60",
   "status": "proved",
   "theorems": [
    "regex_automaton_decides",
    "lexer_gives_first_match",
    "symbols_are_characters",
    "unreadable_expression_refused"
   ],
   "note": "Regular expressions are parse trees: that the bootstrap reader builds the right tree from its text is not modelled."
  },
  {
   "property": "C61",
   "status": "proved",
   "theorems": [
    "lexing_success",
    "lexing_longest_match",
    "lexing_language",
    "language_cut_once",
    "lexing_positions",
    "lexing_history_independent",
    "lexing_empty_fails",
    "lexing_complete_refuted"
   ],
   "note": "The parser is taken to accept the tokens; a token it refuses ends the reading there."
  },
  {
   "property": "C62",
   "status": "proved",
   "theorems": [
    "grammar_has_the_trees",
    "grammar_when"
   ],
   "note": ""
  },
  {
   "property": "C63",
   "status": "proved",
   "theorems": [
    "parsers_read_sentences",
    "parsers_determined"
   ],
   "note": "Indentation-sensitive reading (at_token_indent) is not modelled."
  },
  {
   "property": "C64",
   "status": "proved",
   "theorems": [
    "library_languages_decided",
    "lr0_languages_read",
    "covering_parsers_read",
    "lalr1_languages_accepted_refuted",
    "reading_ends_refuted"
   ],
   "note": "For YAML the tokens are those after indentation has been turned into INDENT and DEDENT."
  },
  {
   "property": "C65",
   "status": "proved",
   "theorems": [
    "build_accepts_elements",
    "build_can_finish",
    "build_makes_the_mesh",
    "built_mesh_answers",
    "build_refuses_partial_rows"
   ],
   "note": "One rank, vertices numbered 0, 1, ...: reorder_by_globals is never reached then."
  },
  {
   "property": "C66",
   "status": "proved",
   "theorems": [
    "quads_become_triangles",
    "hexes_become_tetrahedra",
    "shared_faces_are_cut_alike",
    "hexes_split_refuted",
    "split_refuses_partial_rows"
   ],
   "note": "The symmetric splits are in C67."
  },
  {
   "property": "C67",
   "status": "proved",
   "theorems": [
    "box_is_accepted",
    "box_can_finish",
    "box_is_filled",
    "box_has_its_counts",
    "box_refuses_counts"
   ],
   "note": "Coordinates are exact, in half cells; the Hilbert reordering and the classification that build_box adds are not part of this property."
  },
  {
   "property": "C68",
   "status": "proved",
   "theorems": [
    "mesh_in_box_is_classified",
    "box_mesh_is_classified",
    "box_body_is_named",
    "box_sides_are_named",
    "box_names_only"
   ],
   "note": "Centroids are exact rationals; a centroid is further than the tolerance from a side unless all vertices are on it, which leaves 1/16 of a cell for rounding."
  },
  {
   "property": "C69",
   "status": "proved",
   "theorems": [
    "unmap_mesh_keeps_what_is_listed",
    "unmap_mesh_renumbers",
    "unmap_mesh_of_any_tags_refuted"
   ],
   "note": "One rank, no parents. The refuted theorem shows that tags without values are not supported by the code."
  },
  {
   "property": "C70",
   "status": "proved",
   "theorems": [
    "entities_follow_their_vertices",
    "vertices_follow_the_curve",
    "entities_follow_globals",
    "boxes_are_whole",
    "boxes_get_built"
   ],
   "note": "One rank. The curve is any function that gives keys; C09 is about the Hilbert curve itself. Coordinates of boxes are exact, in half cells."
  },
  {
   "property": "C71",
   "status": "proved",
   "theorems": [
    "migrate_mesh_moves",
    "migrate_mesh_elem_based",
    "migrate_mesh_owners_exist_refuted"
   ],
   "note": "All ranks have the same tags. Statistics printed with verbose are not modelled."
  },
  {
   "property": "C72",
   "status": "proved",
   "theorems": [
    "ghost_mesh_adds_layers",
    "ghost_mesh_of_hypercubes_refuted",
    "ghost_mesh_refuses",
    "partition_by_verts_exact",
    "partition_by_elems_exact"
   ],
   "note": "The adjacencies asked of the mesh of each rank are a parameter with a correctness hypothesis; C32 is about them."
  },
  {
   "property": "C73",
   "status": "proved",
   "theorems": [
    "set_parting_redistributes",
    "set_parting_history",
    "set_parting_default_redistributes",
    "set_parting_refuses_layers",
    "set_parting_hypercubes_refuted",
    "set_parting_no_layers_refuted"
   ],
   "note": "What ask_down and ask_up answer on each rank is a parameter with a correctness hypothesis, and a function is given that meets it for every mesh."
  },
  {
   "property": "C74",
   "status": "proved",
   "theorems": [
    "balance_redistributes",
    "bisection_deals",
    "balance_follows_deal",
    "set_parting_each_once",
    "balance_aborts",
    "balance_any_number_refuted"
   ],
   "note": "Centres, masses and marks are floating point in the code and parameters here: arrays of the right sizes, otherwise arbitrary."
  },
  {
   "property": "C75",
   "status": "proved",
   "theorems": [
    "classification_is_completed",
    "classification_without_ids",
    "classification_can_finish",
    "classification_is_one",
    "classification_fits",
    "classification_of_sides",
    "classification_again",
    "projection_infers",
    "inferred_is_one",
    "projection_ignores_order",
    "classification_ignores_order_refuted",
    "given_entities_are_classified",
    "given_hypercubes_refuted"
   ],
   "note": "One rank; classification by angles is floating point and not modelled."
  },
  {
   "property": "C76",
   "status": "proved",
   "theorems": [
    "replacement_is_right",
    "replacement_can_finish"
   ],
   "note": "One rank; the replacements of C77, C78, C79 and C80 are shown to fit."
  },
  {
   "property": "C77",
   "status": "proved",
   "theorems": [
    "splitting_is_defined",
    "splitting_is_right",
    "splitting_can_finish",
    "splitting_keeps_the_old",
    "built_meshes_are_simplicial"
   ],
   "note": "One rank; choice of edges is C27 and C47; values computed by formulas (coordinates, metrics) are floating point and not modelled."
  },
  {
   "property": "C78",
   "status": "proved",
   "theorems": [
    "swapping_is_defined",
    "swapping_is_right",
    "swapping_can_finish",
    "swapping_keeps_the_old"
   ],
   "note": "One rank; the choice of edges is C27 and C47; values computed by formulas (lengths, qualities) are floating point and not modelled."
  },
  {
   "property": "C79",
   "status": "proved",
   "theorems": [
    "collapsing_is_defined",
    "collapsing_is_right",
    "collapsing_can_finish",
    "collapsing_keeps_the_old"
   ],
   "note": "One rank; which vertices go is decided before (C81, C27); the hypothesis on what can be collapsed together is on the result, not on how the code checks it; values computed by formulas are floating point and not modelled."
  },
  {
   "property": "C80",
   "status": "proved",
   "theorems": [
    "recutting_is_defined",
    "recutting_is_right",
    "recutting_can_finish",
    "recutting_keeps_the_old"
   ],
   "note": "One rank; the choice of edges and configurations by quality is floating point, C36 to C38 and C40 say which configurations there are and that any choice among them is allowed; values computed by formulas are not modelled."
  },
  {
   "property": "C81",
   "status": "proved",
   "theorems": [
    "choosing_is_defined",
    "choosing_is_right",
    "choosing_can_finish",
    "chosen_vertices_go",
    "chosen_collapses_lose_no_boundary"
   ],
   "note": "One rank; lengths, qualities and the checks made with them (overshoot, flip, minimum quality, improvement) are floating point: they are any values and any functions of an edge and an end; sync between ranks and the independent set (C27) are apart."
  },
  {
   "property": "C82",
   "status": "proved",
   "theorems": [
    "reading_is_defined",
    "reading_is_right",
    "reading_fails_otherwise",
    "final_reading_is_right",
    "flag_values_are_from_the_line",
    "required_values_are_from_the_line",
    "clashing_last_word_is_rejected",
    "every_readable_line_is_accepted_refuted"
   ],
   "note": "What atoi and atof make of a word is not modelled: a value is the word; nothing is printed."
  },
  {
   "property": "C83",
   "status": "proved",
   "theorems": [
    "extending_is_defined",
    "extending_is_right",
    "extending_is_exact_without_chains",
    "result_is_the_same_for_all_schedules_refuted",
    "nothing_is_marked_without_marks_refuted",
    "refined_marks_are_right",
    "persisting_elements_are_right",
    "persisting_entities_are_right",
    "sides_of_persisting_elements_persist"
   ],
   "note": "One rank; sequentially consistent interleavings of the accesses to the shared array; what the mesh returns (leaves, children, adjacencies, classification) is given as arrays (C32)."
  },
  {
   "property": "C84",
   "status": "proved",
   "theorems": [
    "separating_by_color_ends_and_loses_nothing",
    "cavities_of_any_size_are_separated_refuted",
    "cavities_are_separated_by_status",
    "elements_that_touch_the_boundary_are_right"
   ],
   "note": "The integrals, errors and diffusion that use the separated cavities are arithmetic with floating point and are not modelled; the graphs from keys to old and new elements are given."
  },
  {
   "property": "C85",
   "status": "proved",
   "theorems": [
    "counts_are_right",
    "children_have_the_right_vertices",
    "corners_at_one_entity_are_one_vertex",
    "refined_entities_are_numbered"
   ],
   "note": "What the mesh returns (adjacencies, children) and the new numbers of vertices are given as arrays of the right size and range; vertices of refined entities have to be among the marked vertices, as marking downward gives since vertices are leaves (C83). Where templates place corners is C51."
  },
  {
   "property": "C86",
   "status": "proved",
   "theorems": [
    "children_are_one_level_finer",
    "children_are_leaves",
    "children_know_their_parents",
    "children_inherit_from_their_parents",
    "children_inherit_two_components_refuted"
   ],
   "note": "The numbering of the new entities is given: products and entities that stay have different numbers, and the products are as many as C85 counts. The parallel loops write different entries and read none that they write, so they are modelled in order."
  },
  {
   "property": "C87",
   "status": "proved",
   "theorems": [
    "refining_a_mesh_as_a_whole",
    "new_numbers_keep_order",
    "neighbours_share_middles"
   ],
   "note": "One rank, one inherited tag of one component. Global numbers, linear interpolation to new vertices and set_ents on the new mesh are not part of it."
  },
  {
   "property": "C88",
   "status": "proved",
   "theorems": [
    "parents_and_leaves_follow",
    "vertices_keep_their_parents_refuted"
   ],
   "note": "One rank. If a schedule stops before the kernels have finished there is no result; the theorem speaks about every result."
  }
 ]
}