claim("C01", "proved", "base64_encode_decode base64_stream_roundtrip", "")
claim("C02", "proved", "base64_decode_7bit base64_decode_no_ub_refuted base64_decode_short_refuted",
  "Decoding is defined for 7-bit input; a byte above 127 indexes the table out of bounds and a short string is read past its end, so the unrestricted claim is refuted.")
claim("C06", "proved", "linear_owners_are_laid_out linear_owners_bijective linear_partition_sizes_balanced find_total_globals_least", "")
claim("C07", "proved", "int128_of_int64 int128_add int128_sub int128_neg int128_shr int128_lt int128_eq int128_add_full_range_refuted", "Addition is exact whenever the high words do not overflow before the carry; the unrestricted claim is refuted.")
claim("C08", "proved", "int128_to_double repro_sum_order_independent repro_sum_exact_on_grid repro_sum_subnormal_refuted", "")
claim("C10", "proved", "serial_scan_prefix offset_scan_size offset_scan_prefix_sums fill_right_running_max openmp_scan_is_serial_scan openmp_scan_defined openmp_scan_many_threads_refuted", "")
claim("C48", "proved", "parallel_for_deterministic parallel_for_serial_schedule", "")
claim("C11", "proved", "unmap_gathers unmap_range_gathers map_into_scatters map_into_checks_size map_into_range_copies map_onto_scatters add_into_adds map_value_into_stores permute_then_unmap unmap_then_permute invert_permutation_inverse compound_maps_composes invert_injective_map_left_inverse mark_image_exact collect_marked_exact invert_marks_flips", "")
claim("C12", "proved", "invert_map_by_sorting_inverts invert_map_by_atomics_inverts", "")
claim("C13", "proved", "sort_by_keys_sorts sort_by_keys_only sort_by_keys_refuses_width sort_by_keys_refuses_remainder", "std::stable_sort (or its parallel equivalent) is modelled by its contract.")
claim("C14", "proved", "sort_small_range_sorts", "Entries up to INT32_MAX.")
claim("C15", "proved", "degrees_of_offset_scan offset_scan_of_degrees offset_scan_is_fan invert_fan_lists_groups invert_funnel_recovers expand_copies fan_reduce_reduces fan_reduce_narrow_sum_refuted", "")
claim("C03", "proved", "pool_blocks_live_and_distinct pool_allocate_fresh pool_allocate_refused pool_deallocate_checks pool_destroy_releases_all pool_no_ub pool_huge_size_refuted", "")
claim("C04", "proved", "storage_freed_exactly_once parallel_copy_keeps_size self_assignment_refuted self_move_refuted parallel_move_leaks_refuted identity_size_refuted", "Assignments between different variables; self-assignment and moves inside a parallel region are refuted.")
claim("C05", "proved", "tracked_total_exact tracked_list_exact tracked_list_refuted tracking_use_after_free_refuted", "The byte total is exact for every history; the list is exact for stack-like histories of at most two live storages; beyond that the list is wrong and the refutations show it.")
claim("C16", "proved", "add_edges_concatenates add_edges_rejects_mismatch wf_graph_has_targets unmap_graph_selects filter_graph_edges_keeps_marked filter_graph_edges_refuted filter_graph_nodes_induces identity_graph_loops add_self_edges_adds_loop", "")
claim("C22", "proved", "down_template_in_range side_vertices_distinct sides_differ side_of_side_is_side up_template_sound up_template_complete faces_oriented_coherently opposite_is_complement", "Finite tables, checked exhaustively by the kernel.")
claim("C51", "proved", "split_children_are_subcubes split_interior_child_is_dual", "")
claim("C17", "proved", "code_round_trip code_round_trip_refuted align_adj_moves_vertices align_adj_moves_edges invert_alignment_undoes compound_alignments_composes align_adj_same_polygon align_adj_reaches_polygon align_adj_faithful align_ev2v_aligns_rows", "")
claim("C18", "proved", "find_unique_finds_each_side_once same_polygon_is_same_set find_unique_rows", "")
claim("C19", "proved", "invert_adj_lists_uses invert_adj_schedule_independent upward_code_names_use unmap_adjacency_selects", "")
claim("C20", "proved", "find_matches_finds_entity find_matches_takes_first reflect_down_finds_sides reflect_down_refuses find_unique_then_reflect_down", "")
claim("C21", "proved", "transit_to_vertices transit_to_edges", "")
claim("C42", "proved", "coalesce_empty coalesce_reads_outside coalesce_concatenates_refuted", "The property as revised; the intended contract is refuted.")
claim("C52", "proved", "equality_any_backend get_max_any_backend get_min_any_backend find_last_any_backend is_sorted_any_backend get_sum_any_backend get_sum_order_refuted custom_reduction_refuted", "")
claim("C53", "proved", "set_component_sets get_component_reads interleave_components interleave_refuses ternary_each_selects ternary_each_empty_refuted", "")
claim("C47", "proved", "mark_down_marks mark_up_marks mark_up_all_marks exposed_sides_marked", "")
claim("C54", "proved", "binary_search_finds binary_search_large_refuted class_closures_marked", "")
claim("C55", "proved", "dual_layers_are_walks dual_layers_keep_marks_refuted dual_layers_lone_element_refuted", "One rank.")
claim("C56", "proved", "invert_adj_gives_uses verts_across_edges_lists verts_across_edges_joins edges_across_tris_lists edges_across_tets_lists elements_across_sides_lists neighbours_share_side", "")
claim("C49", "proved", "bcast_string_cuts_or_pads bcast_string_delivers bcast_string_delivers_only bcast_string_any_root_refuted", "The property as revised: the length is broadcast from rank 0, the characters from the root.")
claim("C33", "proved", "future_get_waits future_completed_is_inverted future_of_data future_completed_refuted", "The property as revised; the intended contract of completed() is refuted.")
claim("C24", "proved", "senders_discovered senders_discovery_never_stuck", "Any number of successive calls on one communicator.")
claim("C50", "proved", "bi_partition_balances bi_partition_refuses_odd", "")
claim("C44", "proved", "path_filename path_parent_and_filename path_parent_of_name path_parent_shorter_refuted path_join_filename path_join_parent path_join_empty path_stem_extension path_extension", "POSIX separator.")
claim("C45", "proved", "remove_all_removes_exactly remove_all_inside_only_refuted remove_all_succeeds_refuted status_file_types", "The property as revised; deletion outside the tree is exhibited.")
claim("C46", "proved", "profile_is_call_tree profile_excess_stop_undefined profile_walk_visits_once profile_depths profile_invert", "Clock readings are exact integers.")
claim("C43", "proved", "xml_tag_parses xml_tag_only xml_read_tag xml_self_closing_refuted", "The property as revised, with the exact language accepted.")
claim("C36","proved","swap_tables_enumerate_triangulations","Tables are generated from the header by tools/swap_tables.py; a triangulation is specified by non-crossing diagonals, its triangles by adjacency, independently of the tables.")
claim("C37","proved","swap3d_refills_cavities","All keys of one pass, any listing order and alignment of the old tets, any commutative ring of coordinates. Also: product triangles are exactly the interior faces and product edges exactly the new vertex pairs.")
claim("C38","proved","swap_choice_is_best swap_choice_judges_all swap_choice_quality_is_of_written_tets","Arbitrary quality and length functions valued in Z standing for the reals (only comparisons are used; NaN is not modelled).")
claim("C40","proved","edge_loop_is_cyclic","Loops of 3 to 7 tets; larger ones are not ordered by the code (MAX_EDGE_SWAP).")
claim("C39","proved","swap2d_keeps_area_and_boundary","Exact arithmetic over every commutative ring; every alignment of the two triangles.")
claim("C41","proved","collapse_removes collapse_target collapse_retargets","Every mesh dimension 1-3, every mesh whose stored adjacencies are consistent, every set of collapses.")
claim("C35","proved","split_volume split_area split_products","Exact arithmetic over every commutative ring; every alignment; also the products of all lower dimensions.")
claim("C34","proved","adapt_numbering kept_numbering adapt_numbering_dependent_keys_refuted","Local numbers on one rank; ownership and global numbers are not part of it. Atomic additions are made in order (they commute).")
claim("C09", "proved", "transpose_undone axes_undone cell_has_position cells_differ_positions_differ position_has_cell curve_starts_at_origin curve_steps_to_neighbours cell_outside_is_clamped points_sorted_along_curve",
  "the loops are modelled on 64-bit words; the floating point map from coordinates to cells is not modelled, the theorems start at the integer cells")

claim("C23", "proved", "dist_atomics_inverter invert_map_by_atomics_can_finish dist_made dist_delivers dist_returns dist_reduces dist_remembers dist_invert_involutive dist_ranks_made dist_ranks_delivers dist_ranks_round_trip dist_globals_deliver",
  "Collectives act on the vector of all ranks (M_Dist.v); rank counts up to 2^31 because the ranks are sorted as 32-bit numbers. iexch and change_comm are not modelled.")

claim("C25","proved","update_ownership_balances update_ownership_obeys update_ownership_consistent owners_from_globals_balances owners_from_globals_obeys reduce_data_to_owners_copies","")
claim("C26","proved","globals_from_owners_numbers globals_from_owners_unshared owned_list_complete nglobal_ents_counts sync_array_agrees reduce_array_joins owners_from_globals_proper","")

claim("C27","proved","find_indset_greedy greedy_independent_maximal greedy_is_unique find_indset_nan_refuted","The wrapper that builds the star graph and checks owners_have_all_upward is not modelled; that the owner sees all neighbours is part of the hypothesis 'presents'.")

claim("C30","proved","tags_hold_last_stored tags_numbered_in_order add_tag_succeeds","get_tag by number accepts i = ntags: shown in tags_numbered_in_order.")
claim("C31","proved","asked_quantities_fresh asked_lengths_stale_after_remove_refuted asked_lengths_stale_after_internal_refuted","The measuring functions are parameters.")
claim("C32","proved","asked_adjacency_means asked_adjacency_history_independent asked_adjacency_answered asked_adjacency_can_finish asked_faces_refused adjacency_never_replaced asked_graph_means asked_graph_answered asked_parents_current asked_children_first asked_children_current_refuted asked_children_of_vertices_refuted","Stale children after set_parents and the out-of-bounds request for children of vertices are the _refuted theorems.")

claim("C28","proved","value_round_trip array_round_trip string_round_trip mesh_round_trip mesh_second_round_trip mesh_file_portable compressed_refused_without_zlib other_rank_refused","Streams, not directories of parts; zlib is a parameter assumed to restore what it compressed. Reading versions before the latest is modelled but has no writer to compare with.")
claim("C29","proved","truncated_mesh_plain truncated_mesh truncated_mesh_accepted_refuted","Using an uninitialised variable is undefined behaviour in the model.")

claim("C57","proved","unite_recognises concat_recognises plus_recognises star_recognises maybe_recognises maybe_recognises_any_refuted","Regular expressions only build automata whose accepting states have no moves.")
claim("C58","proved","make_deterministic_least_token","")
claim("C59","proved","simplify_preserves simplify_least_refuted","")
claim("C60","proved","regex_automaton_decides lexer_gives_first_match symbols_are_characters unreadable_expression_refused","Regular expressions are parse trees: that the bootstrap reader builds the right tree from its text is not modelled.")
claim("C61","proved","lexing_success lexing_longest_match lexing_language language_cut_once lexing_positions lexing_history_independent lexing_empty_fails lexing_complete_refuted","The parser is taken to accept the tokens; a token it refuses ends the reading there.")

claim("C62","proved","grammar_has_the_trees grammar_when","")
claim("C63","proved","parsers_read_sentences parsers_determined","Indentation-sensitive reading (at_token_indent) is not modelled.")
claim("C64","proved","library_languages_decided lr0_languages_read covering_parsers_read lalr1_languages_accepted_refuted reading_ends_refuted","For YAML the tokens are those after indentation has been turned into INDENT and DEDENT.")

claim("C65","proved","build_accepts_elements build_can_finish build_makes_the_mesh built_mesh_answers build_refuses_partial_rows","One rank, vertices numbered 0, 1, ...: reorder_by_globals is never reached then.")
claim("C66","proved","quads_become_triangles hexes_become_tetrahedra shared_faces_are_cut_alike hexes_split_refuted split_refuses_partial_rows","The symmetric splits are in C67.")
claim("C67","proved","box_is_accepted box_can_finish box_is_filled box_has_its_counts box_refuses_counts","Coordinates are exact, in half cells; the Hilbert reordering and the classification that build_box adds are not part of this property.")
claim("C68","proved","mesh_in_box_is_classified box_mesh_is_classified box_body_is_named box_sides_are_named box_names_only","Centroids are exact rationals; a centroid is further than the tolerance from a side unless all vertices are on it, which leaves 1/16 of a cell for rounding.")
claim("C69","proved","unmap_mesh_keeps_what_is_listed unmap_mesh_renumbers unmap_mesh_of_any_tags_refuted","One rank, no parents. The refuted theorem shows that tags without values are not supported by the code.")
claim("C70","proved","entities_follow_their_vertices vertices_follow_the_curve entities_follow_globals boxes_are_whole boxes_get_built","One rank. The curve is any function that gives keys; C09 is about the Hilbert curve itself. Coordinates of boxes are exact, in half cells.")
claim("C71","proved","migrate_mesh_moves migrate_mesh_elem_based migrate_mesh_owners_exist_refuted","All ranks have the same tags. Statistics printed with verbose are not modelled.")
claim("C72","proved","ghost_mesh_adds_layers ghost_mesh_of_hypercubes_refuted ghost_mesh_refuses partition_by_verts_exact partition_by_elems_exact","The adjacencies asked of the mesh of each rank are a parameter with a correctness hypothesis; C32 is about them.")
claim("C73","proved","set_parting_redistributes set_parting_history set_parting_default_redistributes set_parting_refuses_layers set_parting_hypercubes_refuted set_parting_no_layers_refuted","What ask_down and ask_up answer on each rank is a parameter with a correctness hypothesis, and a function is given that meets it for every mesh.")
claim("C74","proved","balance_redistributes bisection_deals balance_follows_deal set_parting_each_once balance_aborts balance_any_number_refuted","Centres, masses and marks are floating point in the code and parameters here: arrays of the right sizes, otherwise arbitrary.")
claim("C75","proved","classification_is_completed classification_without_ids classification_can_finish classification_is_one classification_fits classification_of_sides classification_again projection_infers inferred_is_one projection_ignores_order classification_ignores_order_refuted given_entities_are_classified given_hypercubes_refuted","One rank; classification by angles is floating point and not modelled.")
claim("C76","proved","replacement_is_right replacement_can_finish","One rank; the replacements of C77, C78, C79 and C80 are shown to fit.")
claim("C77","proved","splitting_is_defined splitting_is_right splitting_can_finish splitting_keeps_the_old built_meshes_are_simplicial","One rank; choice of edges is C27 and C47; values computed by formulas (coordinates, metrics) are floating point and not modelled.")
claim("C78","proved","swapping_is_defined swapping_is_right swapping_can_finish swapping_keeps_the_old","One rank; the choice of edges is C27 and C47; values computed by formulas (lengths, qualities) are floating point and not modelled.")
claim("C79","proved","collapsing_is_defined collapsing_is_right collapsing_can_finish collapsing_keeps_the_old","One rank; which vertices go is decided before (C81, C27); the hypothesis on what can be collapsed together is on the result, not on how the code checks it; values computed by formulas are floating point and not modelled.")
claim("C80","proved","recutting_is_defined recutting_is_right recutting_can_finish recutting_keeps_the_old","One rank; the choice of edges and configurations by quality is floating point, C36 to C38 and C40 say which configurations there are and that any choice among them is allowed; values computed by formulas are not modelled.")
claim("C81","proved","choosing_is_defined choosing_is_right choosing_can_finish chosen_vertices_go chosen_collapses_lose_no_boundary","One rank; lengths, qualities and the checks made with them (overshoot, flip, minimum quality, improvement) are floating point: they are any values and any functions of an edge and an end; sync between ranks and the independent set (C27) are apart.")
claim("C82","proved","reading_is_defined reading_is_right reading_fails_otherwise final_reading_is_right flag_values_are_from_the_line required_values_are_from_the_line clashing_last_word_is_rejected every_readable_line_is_accepted_refuted","What atoi and atof make of a word is not modelled: a value is the word; nothing is printed.")
claim("C83","proved","extending_is_defined extending_is_right extending_is_exact_without_chains result_is_the_same_for_all_schedules_refuted nothing_is_marked_without_marks_refuted refined_marks_are_right persisting_elements_are_right persisting_entities_are_right sides_of_persisting_elements_persist","One rank; sequentially consistent interleavings of the accesses to the shared array; what the mesh returns (leaves, children, adjacencies, classification) is given as arrays (C32).")
claim("C84","proved","separating_by_color_ends_and_loses_nothing cavities_of_any_size_are_separated_refuted cavities_are_separated_by_status elements_that_touch_the_boundary_are_right","The integrals, errors and diffusion that use the separated cavities are arithmetic with floating point and are not modelled; the graphs from keys to old and new elements are given.")
claim("C85","proved","counts_are_right children_have_the_right_vertices corners_at_one_entity_are_one_vertex refined_entities_are_numbered","What the mesh returns (adjacencies, children) and the new numbers of vertices are given as arrays of the right size and range; vertices of refined entities have to be among the marked vertices, as marking downward gives since vertices are leaves (C83). Where templates place corners is C51.")
claim("C86","proved","children_are_one_level_finer children_are_leaves children_know_their_parents children_inherit_from_their_parents children_inherit_two_components_refuted","The numbering of the new entities is given: products and entities that stay have different numbers, and the products are as many as C85 counts. The parallel loops write different entries and read none that they write, so they are modelled in order.")
claim("C87","proved","refining_a_mesh_as_a_whole new_numbers_keep_order neighbours_share_middles","One rank, one inherited tag of one component. Global numbers, linear interpolation to new vertices and set_ents on the new mesh are not part of it.")
claim("C88","proved","parents_and_leaves_follow vertices_keep_their_parents_refuted","One rank. If a schedule stops before the kernels have finished there is no result; the theorem speaks about every result.")
