#!/usr/bin/env python3
# Writes properties.jsonl. Each tuple: id, title, statement, quantifier, why_tests_cant, anchors
import json, sys
P = []
def p(id, title, statement, quantifier, why, *anchors):
    P.append(dict(id=id, title=title, statement=statement, quantifier=quantifier,
                  why_tests_cant=why, anchors=list(anchors)))

p("C01", "base64 text round-trips every byte string",
  "base64::encode followed by base64::decode with the original size returns the original bytes; the text has exactly encoded_size(n) = 4*ceil(n/3) characters of the base64 alphabet, and read_encoded applied to a stream that holds the text followed by any non-alphabet character returns exactly the text.",
  "every finite byte string (every length residue mod 3) and every stream tail",
  "there are infinitely many byte strings; a test samples a few lengths and values",
  "src/Omega_h_base64.cpp: encode, decode, encoded_size, read_encoded")
p("C02", "base64 decode refuses invalid text instead of returning garbage",
  "decode of a text of the right length either returns the bytes denoted by the text or aborts; it never has undefined behaviour, whatever characters the text holds.",
  "every text, including bytes above 127 as they arrive from a corrupt .vtu file",
  "tests use well-formed text only; the failing inputs are characters with the sign bit set",
  "src/Omega_h_base64.cpp: decode_4, decode")
p("C03", "the memory pool never hands out a block twice",
  "In every history of allocate/deallocate calls on a Pool, each block handed out has at least the requested size, is different from every block that is currently handed out, and was obtained from the underlying allocator and not yet released to it; destroying the pool releases every block exactly once; deallocate of a block that is not live under that size class aborts.",
  "every finite sequence of operations and every behaviour of the underlying malloc, including failures that trigger the release-and-retry path",
  "needs all histories and all malloc failure points",
  "src/Omega_h_pool.cpp: allocate, deallocate, ~Pool", "src/Omega_h_pool.hpp")
p("C04", "array handles free storage exactly once and never use it afterwards",
  "Over every sequence of creating, copying, moving, assigning (to a different handle) and destroying array handles outside a parallel region, the storage of an array stays allocated while at least one handle refers to it, is freed exactly once when the last one goes away, and the use count reported equals the number of handles.",
  "every finite history of handle operations",
  "reference-count errors depend on the history; tests run only some",
  "src/Omega_h_shared_alloc.hpp: SharedAlloc::copy, move, clear, operator=", "src/Omega_h_shared_alloc.cpp: Alloc")
p("C05", "allocation tracking reports the live arrays, within limits",
  "With allocation tracking on, at every point of every history the tracked byte total equals the sum of the sizes of the live allocations; and as long as at most two allocations are live at a time and the younger is dropped first, no operation touches a freed record and the tracked list, walked from the first entry, visits exactly the live allocations. Beyond that limit the list misses live allocations and its links dangle, because the end of the list is not updated when an entry is added.",
  "every history of array creations and destructions while tracking is enabled",
  "the list is only read when memory runs out or at a high-water mark; its corruption shows only in particular histories",
  "src/Omega_h_shared_alloc.cpp: Alloc::init, Alloc::~Alloc, start_tracking_allocations")
p("C06", "linear partition of global numbers is a bijection",
  "For a total of N global numbers over P ranks, globals_to_linear_owners maps each global g in [0,N) to a rank in [0,P) and a local index smaller than that rank's linear_partition_size; distinct globals get distinct (rank,index) pairs, every pair is hit, the assignment is monotone, and the sizes sum to N and differ by at most one.",
  "every N >= 0, P >= 1 and g, in particular N < P and N divisible by P",
  "unbounded in N and P",
  "src/Omega_h_linpart.cpp: globals_to_linear_owners, linear_partition_size")
p("C07", "128-bit integers add and subtract exactly",
  "Int128 addition, subtraction, negation, comparison and conversion from 64-bit integers agree with the mathematical integers whenever the exact result fits in 128 bits, and right shift by 1..63 is floor division by a power of two for non-negative values.",
  "all pairs of 128-bit values",
  "2^256 input pairs; carry and borrow corner cases",
  "src/Omega_h_int128.hpp: operator+, operator-, operator>>, operator<")
p("C08", "reproducible sums do not depend on order or partitioning",
  "repro_sum of an array of numbers gives the same result for every permutation of the array and for every distribution of its entries over MPI ranks, provided the fixed-point total fits in 128 bits.",
  "every array, every permutation, every distribution over ranks, every reduction tree",
  "factorially many orders and partitions",
  "src/Omega_h_array_ops.cpp: repro_sum, max_exponent, int128_sum", "src/Omega_h_comm.cpp: add_int128")
p("C09", "the Hilbert index is a bijection that steps through neighbouring cells",
  "The conversions between grid cells and transposed Hilbert indices undo each other; together with untransposing they give every cell of the grid its own position along the curve, every position is taken, position 0 is the origin, and cells at consecutive positions share a face. Cells beyond the grid are moved to its border. Sorting points lists them in the order in which the curve visits their cells, points in the same cell in input order.",
  "every dimension n >= 1, every bit count 1 <= b <= 64 (63 for whole positions of cells), every cell of the 2^(b n) grid; every list of cells in dimension 1 to 3 for the sort",
  "the grid has 2^(52*3) points at the library's resolution",
  "src/Omega_h_hilbert.hpp: AxestoTranspose, TransposetoAxes, untranspose, from_spatial", "src/Omega_h_hilbert.cpp: dists_from_coords, sort_coords")
p("C10", "prefix sums are exact for every thread schedule",
  "offset_scan returns the array of n+1 exclusive prefix sums (first 0, last the total); the OpenMP implementation of the inclusive scan equals the sequential one for every number of threads up to the fixed limit and also when done in place; fill_right replaces each entry by the running maximum.",
  "every array, every thread count, every interleaving allowed by the barriers",
  "all arrays times all thread counts; races do not show in tests",
  "src/Omega_h_scan.hpp: inclusive_scan, transform_inclusive_scan", "src/Omega_h_int_scan.cpp: offset_scan, fill_right")
p("C11", "array mapping operations obey their algebra",
  "unmap gathers (out[a] = in[map[a]]), map_into/map_onto scatter, permute by a permutation is undone by unmapping with it, invert_permutation gives the inverse permutation, compound_maps composes, invert_injective_map is a left inverse with -1 elsewhere, collect_marked lists exactly the marked indices in increasing order.",
  "every array, width, map and permutation within bounds",
  "unbounded arrays",
  "src/Omega_h_map.cpp: unmap, map_into, map_onto, permute, invert_permutation, compound_maps, invert_injective_map, collect_marked")
p("C12", "inverting a map gives the same graph for every schedule",
  "invert_map_by_atomics returns, for every interleaving of the atomic increments, offsets and, per target, exactly the set of sources that map to it, each once; invert_map_by_sorting returns the same graph with each list in increasing order.",
  "every map and every interleaving of the parallel kernel",
  "nondeterministic schedule",
  "src/Omega_h_map.cpp: invert_map_by_atomics, invert_map_by_sorting, invert_funnel")
p("C13", "sort_by_keys is a stable lexicographic sort",
  "sort_by_keys returns a permutation such that the permuted key tuples are in lexicographic order and equal tuples keep their original relative order.",
  "every key array and every width 1..4",
  "unbounded arrays; stability needs ties",
  "src/Omega_h_sort.cpp: sort_by_keys, CompareKeySets")
p("C14", "sort_small_range agrees with the stable sort and groups equal values",
  "sort_small_range returns a permutation to positions sorted by value (stable), the fan offsets of each group and the sorted list of distinct values: group g of the fan holds exactly the items with the g-th distinct value.",
  "every array of integers",
  "unbounded arrays",
  "src/Omega_h_sort.cpp: sort_small_range, next_smallest_value, number_same_values, combine_perms")
p("C15", "fans expand, invert and reduce consistently",
  "For a non-decreasing offset array (fan), get_degrees and offset_scan are inverse, invert_fan lists for each item its group, expand copies group data to items, invert_funnel recovers the fan from the item-to-group map, and fan_reduce gives the minimum, maximum or sum per group, where a sum must fit the element type (it wraps otherwise).",
  "every fan (including empty groups anywhere) and data array",
  "empty groups at the start, middle and end in all combinations",
  "src/Omega_h_map.cpp: invert_fan, expand, get_degrees, invert_funnel, fan_reduce")
p("C16", "graph editing operations do what they say",
  "add_edges concatenates adjacency lists node by node, unmap_graph selects nodes, filter_graph_edges keeps exactly the marked edges in order and filter_graph_nodes the edges between marked nodes, as long as no node keeps more than 127 edges (beyond that the 8-bit count wraps and the result is wrong), identity_graph and add_self_edges give one loop per node.",
  "every compressed graph and mark array",
  "unbounded graphs",
  "src/Omega_h_graph.cpp: add_edges, unmap_graph, filter_graph_edges, add_self_edges, identity_graph")
p("C17", "alignment codes form a group acting on vertices",
  "make_code/code_which_down/code_rotation/code_is_flipped round-trip for positions below 16 (position 16 does not fit the 8-bit code); align_adj applied with a code and then with invert_alignment of it is the identity; align_adj with compound_alignments(c1,c2) equals aligning with c1 then c2; align_index is consistent with align_adj. Rotations are those of the polygon (below its number of corners).",
  "all alignment codes of triangles and quadrilaterals (and edges), all vertex tuples",
  "codes are finite but vertex data is arbitrary",
  "src/Omega_h_align.hpp: make_code, align_adj, invert_alignment, compound_alignments, align_index")
p("C18", "find_unique finds every entity exactly once",
  "find_unique returns one vertex tuple per distinct vertex set among the sides of the elements (tuples equal up to rotation and flip are one entity): no two returned tuples are alignments of one another, every used side is an alignment of a returned one.",
  "every element-to-vertex connectivity without repeated vertices inside an element",
  "unbounded meshes",
  "src/Omega_h_adj.cpp: find_unique, form_uses, get_codes_to_canonical, find_canonical_jumps")
p("C19", "upward adjacency does not depend on thread interleaving",
  "invert_adj returns, for every interleaving of its atomic kernel, the same arrays: for each low entity the list of its (high entity, code) uses sorted by high entity, where the code names the position and alignment of the use; every downward use appears exactly once upward.",
  "every downward adjacency in which no element repeats a low entity, every interleaving",
  "nondeterministic schedule and unbounded meshes",
  "src/Omega_h_adj.cpp: invert_adj, sort_by_high_index, separate_upward_no_codes, separate_upward_with_codes")
p("C20", "reflect_down finds the matching lower entity and its alignment",
  "For each side of each element, find_matches/reflect_down returns the low entity whose vertices are the side's vertices up to alignment, and a code which aligns that entity's vertices onto the side; if there is no such entity it aborts.",
  "every mesh connectivity with distinct vertices per entity",
  "unbounded meshes",
  "src/Omega_h_adj.cpp: find_matches_deg, reflect_down, IsMatch")
p("C21", "transitive adjacency agrees with direct vertices",
  "transit of element-to-face and face-to-edge (or edge-to-vertex) adjacencies returns for each element the same low entities in the canonical order as the element's own template prescribes, with correct codes.",
  "every consistent mesh and every combination of codes",
  "all alignments times all meshes",
  "src/Omega_h_adj.cpp: transit", "src/Omega_h_simplex.hpp")
p("C22", "element templates are mutually consistent",
  "For simplices and hypercubes of every dimension: the vertices of a side's side are vertices of the element, the up-templates are the inverse relation of the down-templates with matching flips, opposite entities share no vertex and together cover the simplex, and the two faces of a region that share an edge run along it in opposite directions.",
  "every (dimension, low dimension, index) triple the library supports",
  "finite tables; tests spot-check a few entries",
  "src/Omega_h_simplex.hpp", "src/Omega_h_hypercube.hpp", "src/Omega_h_template_up.hpp")
p("C23", "distributed exchange delivers each item to its destination and back",
  "For a Dist built from destination ranks, items arrive exactly once at the addressed rank, by increasing sending rank and then in the sender's order; with global numbers they arrive by increasing global number, ties by sender and position; exchanging and exchanging back through invert returns the data. For a Dist built from destination (rank, index) pairs, construction succeeds, exch delivers every item's values together, in an order that depends on the destinations and on the schedule of the map inversion but not on the data, the items of one destination index are contiguous, exchange through invert gives every item the values of exactly its (rank, index), exch_reduce joins the values of exactly the items sent to that index, and items2dests returns the pairs the Dist was built from.",
  "every number of ranks, every destination map, every width >= 1, every schedule of the atomic map inversion",
  "unbounded communication patterns",
  "src/Omega_h_dist.cpp: set_dest_ranks, set_dest_idxs, set_dest_globals, invert, exch, exch_reduce, items2dests",
  "src/Omega_h_comm.cpp: graph_adjacent, graph_inverse, alltoall, alltoallv")
p("C24", "discovering senders terminates and is correct under every message schedule",
  "sources_from_destinations, the nonblocking-consensus algorithm, returns on every rank exactly the ranks that listed it as a destination, sorted and with multiplicity, whatever the order in which messages are delivered and ranks are scheduled, also when calls follow each other; no rank leaves before all messages addressed to it are received, and no schedule leads to a state from which the ranks cannot finish.",
  "every number of ranks, every destination lists, every interleaving of sends, probes, receives and barrier entries",
  "asynchronous schedules",
  "src/Omega_h_comm.cpp: sources_from_destinations")
p("C25", "ownership is consistent across ranks",
  "update_ownership (and owners_from_globals, where copies are the entries with one global number) always succeeds and makes every copy of an entity name the same owner, which is one of the copies: without given ranks the one on the rank holding fewest copies in all, lowest rank among ties. Given ranks are kept; when all copies of an entity agree on a rank that has a copy, they all name one copy on that rank, and in general they get one common index, that of a copy which names its own rank, or -1 if there is none. reduce_data_to_owners gives each owner the data of one of its copies.",
  "every distribution of copies over any number of ranks, every way of inverting maps, all given ranks",
  "unbounded distributions",
  "src/Omega_h_owners.cpp: update_ownership, owners_from_globals, reduce_data_to_owners")
p("C26", "global numbers are contiguous and agree between copies",
  "Given a proper ownership, globals_from_owners numbers owned entities 0..N-1 without gaps, rank by rank in local order, every copy gets its owner's number, and the global entity count is N on every rank. sync_array then gives every copy its owner's values, and reduce_array gives every entity the join over exactly the copies that name it. owners_from_globals yields a proper ownership if no rank holds an entity twice.",
  "every distribution of owned entities over any number of ranks, every array and width, any join",
  "unbounded distributions",
  "src/Omega_h_owners.cpp: globals_from_owners", "src/Omega_h_globals.cpp: rescan_globals", "src/Omega_h_mesh.cpp: sync_array, reduce_array, nglobal_ents")
p("C27", "the independent set is independent, maximal and the same on every partition",
  "find_indset ends and returns the one set in which a candidate is chosen exactly if no better neighbour is chosen (better quality, or equal quality and higher global number). So no two chosen nodes are adjacent, no candidate can be added, and the set is the same however the mesh is partitioned, on every copy, and in whatever order nodes are processed. It needs qualities that are numbers: with two adjacent candidates of NaN quality it does not end.",
  "every finite symmetric graph, every quality, every partition over ranks with ghosts",
  "all graphs, all partitions, all iteration counts",
  "src/Omega_h_indset.cpp", "src/Omega_h_indset_inline.hpp")
p("C28", "binary mesh files round-trip",
  "Values, arrays, strings and whole meshes (meta data, entities, tags, ownership, class sets, parents) written by the binary writer are read back equal, on machines of either byte order, with or without compression, and reading consumes exactly the written bytes so that records can follow one another. The bytes do not depend on the byte order of the writer. Three things are not kept: class sets without members, ownership of a mesh on one rank, and the difference between entities without parents and entities explicitly marked as orphans when other entities have parents; a second round trip loses nothing more. A compressed file is refused by a build without zlib, and a part is refused by another rank or another number of ranks.",
  "every mesh that fits the types of the format, every two machines, every bytes that follow",
  "unbounded data; endianness and compression branches on both sides",
  "src/Omega_h_file.cpp: write_value, read_value, write_array, read_array, write, read, write_tag, read_tag, write_sets, read_sets, write_meta, read_meta")
p("C29", "what becomes of a binary file cut short",
  "The reader never checks the stream, so a proper prefix of a written mesh is not reported as such: reading an uncompressed prefix goes on with uninitialised variables wherever the cut is, except that a cut within the last array (the codes of the parents of the elements) goes unnoticed and a mesh comes back with whatever memory held in place of the missing codes, everything else being right. A compressed prefix may in addition be rejected when zlib fails on what memory held. No prefix gives a mesh that is wrong elsewhere.",
  "every mesh, every truncation point, every content of uninitialised memory",
  "every crash point of the writer",
  "src/Omega_h_file.cpp: read_value, read_array, read(std::istream)")
p("C30", "mesh tags behave as a per-dimension named table",
  "After any history of add_tag, set_tag and remove_tag, has_tag and get_array give exactly what was stored last under that name and dimension and not wiped since; storing coordinates or metric on vertices wipes length and quality (and size, for coordinates) and nothing else; names are unique and tags are numbered in the order they came in. get_tag(dim,i) returns tag i for every i below ntags and aborts for other i, except that i = ntags is accepted and reads out of bounds. Storing succeeds whenever there are fewer than 127 tags, at most 127 components and the array has the right size.",
  "every history of tag operations on every mesh",
  "all histories",
  "src/Omega_h_mesh.cpp: add_tag, set_tag, remove_tag, has_tag, get_tag, get_tagbase, react_to_set_tag")
p("C31", "derived quantities are fresh in honest histories",
  "After any history of tag updates and requests in which coordinates and metric are only changed by storing them without the internal flag, and the cached tags are not written directly, ask_lengths, ask_qualities and ask_sizes return what would be measured from the current coordinates and metric. After remove_tag of the metric, or storing it with the internal flag, they can return stale values.",
  "every history of set/add/remove tag and ask calls, every measuring function",
  "cache bugs need particular histories",
  "src/Omega_h_mesh.cpp: react_to_set_tag, ask_lengths, ask_qualities, ask_sizes, remove_tag")
p("C32", "adjacencies do not depend on what was asked before",
  "For every history of set_ents and adjacency requests on a mesh whose entities fit together, ask_adj (hence ask_down, ask_up, ask_star, ask_dual) answers with the adjacency that the vertices of the entities determine: the same value whether it was cached or has to be derived, in whatever order requests came and however the kernels were scheduled; once all entities are set no supported request fails. An adjacency that is present is never replaced. ask_graph gives, between any two dimensions, the graph listing each entity's parts in order, the entities it is part of, or itself. Supported are all downward and upward requests and, for simplices whose sides bound at most two elements, vertices among themselves, edges among themselves and elements across sides; faces among themselves in three dimensions are refused. ask_parents returns the parents set last. ask_children returns the children according to the parents at its first call and is stale after a later set_parents; on a mesh without parents asking for the children of vertices reads out of bounds.",
  "every order of adjacency requests and entity/parent updates, every schedule, every valid topology",
  "all call orders",
  "src/Omega_h_mesh.cpp: ask_adj, ask_graph, derive_adj, add_adj, set_ents, set_parents, ask_parents, ask_children")
p("C33", "a future yields its data exactly once; polling it first is unsafe",
  "get() without any completed() before it returns the callbacks, in the order they were added, applied to the buffer holding the data of all requests, whenever and in whatever order these finish; every later get() aborts. completed() does not tell whether the requests have finished: the first time it is asked it answers true exactly when some request is unfinished, and a get() after that true answer returns the buffer without the unfinished requests' data; after a false answer get() is right. So polling completed() before get() can yield stale data.",
  "every interleaving of message completion with calls of completed() and get()",
  "depends on message timing",
  "src/Omega_h_future.cpp: completed, get, add_callback")
p("C34", "adaptation renumbers entities without gaps or collisions",
  "In modify_ents the new local numbers of kept and produced entities are pairwise different and fill 0..n-1, kept entities keep their relative order, and products follow their representative (after it if it stays) and precede whatever comes behind it. In adaptation this needs keys that do not share an entity of the numbered dimension; otherwise numbers can collide silently.",
  "every mesh with consistent adjacencies, every set of modified entities (independent in adaptation; any set over any dimensions when entities are kept) and every product count",
  "unbounded meshes",
  "src/Omega_h_modify.cpp: modify_ents, get_mods2reps, get_rep_counts, get_rep2md_order, assign_new_numbering")
p("C35", "splitting an edge preserves volume and orientation",
  "For each element adjacent to a split edge, the two child elements produced by refine_domains_to_pairs have signed volumes t*V and (1-t)*V when the new vertex lies at parameter t of the edge, in 2D and 3D, for every alignment of the edge in the element.",
  "all coordinates, all positions of the new vertex, all edge-in-element codes",
  "real-valued coordinates and all codes",
  "src/Omega_h_refine_topology.cpp: refine_domains_to_pairs, flip_new_elem")
p("C36", "edge swap tables enumerate exactly the polygon triangulations",
  "For n = 3..7 the swap tables list every triangulation of the n-gon exactly once; the listed interior edges of each configuration are exactly the diagonals of its triangles.",
  "all configurations of all loop sizes",
  "completeness is a statement about all triangulations",
  "src/Omega_h_swap3d_tables.hpp")
p("C37", "3D edge swap preserves volume for every coordinate choice",
  "For every loop of 3 to 7 tets around an edge and every configuration, the tets produced by swap3d_topology have the same total signed volume as the tets they replace, and the set of boundary faces is unchanged.",
  "all coordinates and all configurations",
  "real-valued coordinates",
  "src/Omega_h_swap3d_topology.cpp", "src/Omega_h_swap3d_loop.hpp: find_loop")
p("C38", "swap choice is the best admissible configuration",
  "choose returns the configuration whose worst tet quality is largest among the configurations with positive quality and no overlong edge, the first one on ties, and -1 if none qualifies; the reported quality is that of the tets swap3d_topology will create.",
  "every quality and length measure",
  "arbitrary measures",
  "src/Omega_h_swap3d_choice.hpp: choose")
p("C39", "2D edge swap preserves area",
  "swap2d_topology replaces the two triangles at an edge by two triangles with the same total signed area and the same boundary edges, for every alignment of the edge in its triangles.",
  "all coordinates and all codes",
  "real-valued coordinates",
  "src/Omega_h_swap2d_topology.cpp")
p("C40", "edge loops are ordered around the edge",
  "find_loop returns the vertices around an edge in cyclic order: consecutive loop vertices belong to a common tet, whatever the order in which the adjacent tets are listed.",
  "every listing order of the tets and every tet alignment",
  "all permutations",
  "src/Omega_h_swap3d_loop.hpp: find_loop")
p("C41", "edge collapse yields the re-targeted elements",
  "coarsen_topology replaces the collapsing vertex by the target vertex in each surviving element and keeps the other vertices; elements containing both are exactly the ones removed.",
  "every mesh and every set of collapses",
  "unbounded meshes",
  "src/Omega_h_coarsen_topology.cpp: coarsen_topology, find_coarsen_domains, mark_dead_ents")
p("C42", "coalesce concatenates arrays",
  "coalesce of an empty list of arrays is an empty array; coalesce of any non-empty list reads one past the end of the list (its offset loop indexes the array after the last), so it never defines a result. The intended contract, concatenation without reading outside, is refuted.",
  "every list of arrays",
  "unbounded; the out-of-bounds read is silent",
  "src/Omega_h_array_ops.cpp: coalesce")
p("C43", "VTK tags parse to what was written",
  "xml_lite::parse_tag recovers element name, kind (start, end, self-closing) and the last value of every attribute of every single-line tag, and accepts no other text; read_tag stops the program on any other. Limit: a self-closing tag is recognised only if a blank precedes its slash; \"<a/>\" is reported as a start tag.",
  "every tag text",
  "unbounded strings",
  "src/Omega_h_xml_lite.cpp: parse_tag")
p("C44", "path operations satisfy their laws",
  "filename() is what follows the last separator; stem and extension concatenate to it, the extension starting at its last dot unless that dot leads the name (\".\" and \"..\" have none); parent_path / filename recovers a path that contains a separator; (a / b).filename() is b's file name and (a / b).parent_path() is a when b has no separator. Limits: parent_path of a path without a separator is that path itself, and joining onto the empty path makes it absolute.",
  "every path string",
  "unbounded strings",
  "src/Omega_h_filesystem.cpp: filename, parent_path, extension, stem, operator/")
p("C45", "removing a directory removes only what is inside it",
  "On a tree whose symbolic links lead only to files outside it, remove_all(p) deletes exactly the entries of the tree rooted at p, returns their number and changes nothing outside it, whatever the listing order. With a link to a directory elsewhere it deletes what that directory holds, and with a link to a file inside the tree it may throw half way, because entry types are those of link targets. status() types regular files, directories and FIFOs rightly for all permission bits, but sockets as regular files, block devices as directories and character devices as symbolic links.",
  "every directory tree including symbolic links",
  "destructive; all trees",
  "src/Omega_h_filesystem.cpp: remove_all, status")
p("C46", "profiling history is a consistent call tree",
  "After any sequence of start and stop without an excess stop the current frame is that of the calls still open, each distinct call path has exactly one frame, call counts equal the number of starts of that path, runtimes the sum of its finished calls, and the pre-order walk visits every frame exactly once, callers first, with the right depths. Inverting the history sums calls and self times by innermost call sequence. An excess stop is undefined behaviour.",
  "every well-nested history of start/stop",
  "all histories",
  "src/Omega_h_profile.hpp: History::start, stop, find_child_of, create_child_of", "src/Omega_h_profile.cpp: pre_order_next")
p("C47", "marking follows adjacency",
  "mark_up marks exactly the high entities touching a marked low entity, mark_up_all those with all low entities marked, mark_down those touched by a marked high entity; mark_exposed_sides marks the sides with fewer than two elements.",
  "every mesh adjacency and marking",
  "unbounded meshes",
  "src/Omega_h_mark.cpp: mark_up, mark_up_all, mark_down")
p("C48", "parallel kernels with disjoint writes are deterministic",
  "A parallel_for whose iterations read only input arrays and write pairwise disjoint entries produces the same array for every interleaving, namely the one the sequential loop produces.",
  "every kernel, size and interleaving",
  "schedules",
  "src/Omega_h_for.hpp: parallel_for")
p("C49", "broadcasting a string delivers it when rank 0 holds one of the same length",
  "bcast_string(s, root) leaves every rank with the root's string cut or padded with NUL characters to the length rank 0's string had; that is the root's string exactly when rank 0's string had the same length, in particular for root 0.",
  "every rank count, root and strings",
  "tests use root 0",
  "src/Omega_h_comm.cpp: bcast_string")
p("C50", "bisection halves are balanced",
  "bi_partition sends every unmarked item to the first half and every marked item to the second half of the ranks, every slot of every rank receives exactly one item, and within each half the item counts of ranks differ by at most one; an odd number of ranks is refused.",
  "every even rank count, every marking",
  "unbounded",
  "src/Omega_h_bipart.cpp: bi_partition")
p("C51", "hypercube refinement tiles the parent",
  "Splitting an edge, quadrilateral or hexahedron gives one child per corner; vertex j of child c is the midpoint of parent corners c and j, so every child is the parent shrunk by half toward its corner in the same orientation; every interior child entity joins the parent's centre with the centre of the boundary entity it is dual to.",
  "every dimension, child and child vertex",
  "a swapped pair in one table row gives an inverted child that a test mesh may not contain",
  "src/Omega_h_hypercube.hpp: hypercube_split_template, hypercube_split_degree")
 
p("C52", "array reductions do not depend on the backend",
  "operator==, get_max, get_min, find_last and is_sorted give the answer their name says, and get_sum the exact sum when the absolute values sum to at most the largest value of the promoted type, on the serial and on the OpenMP backend with every assignment of iterations to threads and every order of combination. With a smaller bound, the order of an OpenMP sum can overflow where the serial loop does not. A user-declared operation, whose private copies start at the initial value, counts that value once per thread more.",
  "every array, backend, assignment of iterations to threads and order of combination",
  "thread schedules and unbounded arrays",
  "src/Omega_h_reduce.hpp: transform_reduce", "src/Omega_h_array_ops.cpp: operator==, get_sum, get_min, get_max, find_last, is_sorted")
p("C53", "components of multi-component arrays",
  "get_component(set_component(out, a, n, c), n, c) is a, and the other components of out are unchanged; interleave of equally long arrays yields an array whose component i is the i-th array, and aborts when lengths differ; ternary_each takes each row from a or b as the condition says. An empty condition with empty arrays aborts.",
  "every array, component count and component",
  "unbounded arrays",
  "src/Omega_h_array_ops.cpp: set_component, get_component, interleave, ternary_each")

p("C54", "classification marks",
  "binary_search in a sorted array of at most 2^30 entries returns a position of the value, or -1 if it is absent; beyond that size the midpoint can overflow. mark_class_closures marks exactly the nodes touching an entity whose class dimension and id are in the given list of pairs.",
  "every array, value, node graph, classification and list of pairs",
  "unbounded arrays and lists",
  "src/Omega_h_mark.hpp: binary_search", "src/Omega_h_mark.cpp: get_eq_marks, mark_class_closures")
p("C55", "layers of elements",
  "When every element has a neighbour, mark_dual_layers with n layers marks exactly the elements from which a walk of exactly n dual steps reaches a marked element. In particular marked elements do not stay marked in general, so the result is not the set within n layers; an element without neighbours gets a non-zero mark whatever the input.",
  "every dual graph, marking and number of layers",
  "test meshes have many marked elements side by side",
  "src/Omega_h_mark.cpp: mark_dual_layers")

p("C56", "neighbour graphs",
  "verts_across_edges lists for each vertex the other end of every edge on it; edges_across_tris and edges_across_tets list for each edge and each triangle (tetrahedron) on it the other two edges (the opposite edge); elements_across_sides lists for each element exactly the elements that share a side with it, side after side, when every side has at most two elements.",
  "every mesh adjacency",
  "unbounded meshes, every local position of the shared entity",
  "src/Omega_h_adj.cpp: verts_across_edges, edges_across_tris, edges_across_tets, elements_across_sides")

p("C57", "automata of composite languages",
  "For automata over the same alphabet, unite recognises a word as a token exactly if one of the two does; concat recognises the words made of a word of the first and a word of the second, plus one or more words of its argument, star any number, all under the token given, when no accepting state of the argument has a silent move. maybe recognises the empty word and those of its argument when accepting states of the argument have no moves at all; for other arguments it recognises words it should not.",
  "every pair of automata and every word",
  "automata and words of every size",
  "src/Omega_h_finite_automaton.cpp: unite, concat, plus, maybe, star, append_states")
p("C58", "deterministic automata",
  "make_deterministic of any automaton ends with a deterministic one over the same alphabet; following it on a word gives the least token that the given automaton can recognise the word as, or -1 if there is none.",
  "every automaton and every word",
  "exponentially many sets of states, words of every length",
  "src/Omega_h_finite_automaton.cpp: make_deterministic, step(StateSet), get_epsilon_closure, accepts(StateSet)")
p("C59", "simplified automata",
  "simplify never adds states, keeps the alphabet and the tokens recognised for every word, and its result has no two states with the same token and the same moves. The result need not be the smallest automaton: states that take turns are kept apart.",
  "every automaton and every word",
  "automata of every size",
  "src/Omega_h_finite_automaton.cpp: simplify, simplify_once")
p("C60", "lexers from regular expressions",
  "The automaton built from a regular expression over readable characters accepts, under its token, exactly the texts the expression matches; the lexer of a list of expressions gives for a text the number of the first expression that matches it, or -1. Symbols and readable characters correspond one to one, and expressions naming other characters are refused.",
  "every regular expression (as parsed), every list of them and every text",
  "expressions and texts of every size",
  "src/Omega_h_regex.cpp: Reader::at_reduce", "src/Omega_h_finite_automaton.cpp: get_symbol, get_char, is_symbol", "src/Omega_h_language.cpp: build_lexer")
p("C61", "longest match",
  "Reading a text always comes to an end. The tokens handed to the parser are, from left to right, the longest prefixes that match some expression of the language (the first such expression names the token); on success they make up the text. Each comes with the line, column and line text just after it. What the reader read before does not matter. Reading fails at the end of a text whose tokens the rule determines if the automaton had not got stuck after the last token but one, and it always fails on the empty text.",
  "every lexer, every text and every history of the reader",
  "texts of every length, every place where matches end",
  "src/Omega_h_reader.cpp: Reader::read_stream, at_lexer_end, backtrack_to_last_accept, reset_lexer_state, update_position")

p("C62", "grammars of languages",
  "build_grammar gives a grammar whose parse trees are exactly the trees that the named productions of the language make from its only goal, the one defined name that no production uses. It throws ParserFail exactly when a production uses a name that is neither a token nor defined, and otherwise ends the program exactly when there is no goal or more than one. A production for the name of a token is never used.",
  "every language and every tree",
  "languages and trees of every size",
  "src/Omega_h_language.cpp: build_grammar", "src/Omega_h_grammar.cpp: find_goal_symbol, add_end_terminal, add_accept_production")
p("C63", "parsers accept only sentences",
  "Whatever parser build_lalr1_parser and accept_parser make of the grammar of a language, reading a text with it never leaves the tables or stacks, and a value is returned only for a text with a parse tree, the value being that of the actions applied to the tree from the leaves up.",
  "every language for which a parser is made, all actions and every sequence of tokens",
  "languages, texts and stacks of every size",
  "src/Omega_h_build_parser.cpp: build_lr0_parser, build_lalr1_parser, accept_parser", "src/Omega_h_parser.cpp: execute_action", "src/Omega_h_reader.cpp: Reader::at_token")
p("C64", "the library's languages are decided",
  "For the grammars of regular expressions, mathematical expressions, XML and YAML in the library, every text (as tokens) has at most one parse tree, reading comes to an end on every text, with the value of the tree (or at an action that throws) when there is one, and with ParserFail exactly when there is none. The same holds, apart from the end on other texts, for every LR(0) language and for every parser made whose reductions include the LALR(1) lookahead sets. Some languages that a parser of this kind would decide are refused, and for a grammar with useless symbols reading may never end.",
  "every sequence of tokens, all actions",
  "infinitely many texts",
  "src/Omega_h_build_parser.cpp: build_lalr1_parser, compute_context_set, make_immediate_predecessor_graph", "src/Omega_h_reader.cpp: Reader::at_token", "src/Omega_h_math_lang.cpp: build_language", "src/Omega_h_xml.cpp: build_language", "src/Omega_h_yaml.cpp: build_language", "src/Omega_h_regex.cpp: build_language")

p("C65", "mesh from elements",
  "build_from_elems2verts on one rank, given elements whose vertices are distinct and exist, never fails, whatever the interleaving of its kernels, and gives a mesh with exactly these vertices and elements and with every edge and face of every element exactly once; the mesh numbers each dimension globally in its order, and every adjacency asked of it afterwards is the one the vertices give. Elements that do not fill whole rows are refused; a vertex that does not exist is not, and is used as an index.",
  "both families, dimensions 1 to 3, every list of elements, every interleaving",
  "meshes of every size and shape, all schedules",
  "src/Omega_h_build.cpp: build_from_elems2verts, build_ents_from_elems2verts, add_ents2verts, build_verts_from_globals", "src/Omega_h_adj.cpp: find_unique, reflect_down", "src/Omega_h_mesh.cpp: set_ents, ask_adj")

p("C66", "splitting into simplices",
  "Splitting quadrilaterals gives, for each in its place, the two triangles on either side of the diagonal through its smallest vertex, oriented like the quadrilateral; so elements that share a quadrilateral cut it alike. Splitting hexahedra gives, for each in its place, five or six tetrahedra of its vertices. They fill the hexahedron, right side out, with every face cut through its smallest vertex, exactly if the two far faces that are, seen from the smallest vertex, at the back and on top are both cut through the far corner or both not: the table of the ring of corners around the diagonal has two entries exchanged, so that hexahedra that have to be turned come out wrong. Arrays that are not made of whole elements are refused.",
  "every list of elements, every order of the vertices of each",
  "every order of the vertices of every element; a box only has one",
  "src/Omega_h_simplify.cpp: tris_from_quads, tets_from_hexes, hex_bur_ring")

p("C67", "meshes of boxes",
  "Building the mesh of a box of nx by ny by nz cells on one rank (no cells along z or y: a rectangle or a line) never fails, of simplices or hypercubes, whether the simplices are to be symmetric or not and whatever the interleaving of the kernels. The vertices lie in the box, no two at one place; every element is right side out (a simplex of positive size, or exactly a cell); together the elements are as large as the box; and every side belongs to two elements, except those on the surface of the box, which belong to one. Unless simplices are to be symmetric there is a vertex at every corner of a cell, and a cell makes one hypercube or 1, 2 or 6 simplices. Other numbers of cells are refused.",
  "all numbers of cells, both families, symmetric or not, every interleaving",
  "boxes of every size",
  "src/Omega_h_box.cpp: make_1d_box, make_2d_box, make_3d_box", "src/Omega_h_build.cpp: build_box_internal, build_from_elems_and_coords", "src/Omega_h_simplify.cpp: tris_from_quads_symmetric, tets_from_hexes_symmetric", "src/Omega_h_mesh.cpp: average_field")

p("C68", "classification of boxes",
  "Every entity of a mesh whose vertices are in the box at multiples of half a cell is given the part of the box it is on: along each axis, whether all its vertices are at the beginning, all at the end or neither; the class identifier is these digits in base 3 and the class dimension the number of axes of the last kind. In a mesh that fills the box an entity is on a part of at least its own dimension, a side is classified on the surface exactly if it has one element, and what bounds an entity is on the same part or on one of smaller dimension. The named sets body, x-, x+, y-, y+, z-, z+ are the body and the sides of the box.",
  "every mesh in every box, both families, dimensions 1 to 3",
  "boxes of every size, every order of the entities",
  "src/Omega_h_box.cpp: classify_box, classify_box_dim, get_box_class_sets")

p("C69", "picking and renumbering entities",
  "Given, for each dimension, a list of entities without repetition such that the sides of what is listed are listed, unmap_mesh on one rank succeeds whatever was asked of the mesh before, and gives a complete mesh of exactly the listed entities in the order of the lists: each has the vertices, sides and alignment codes it had, in the same order, and every tag is there with the values the entities had. If all entities are listed, the result has all sides of all elements just as the mesh had. All tags must have values: a tag without an array is read out of bounds.",
  "every mesh with tags, every such lists, both families, dimensions 1 to 3",
  "every mesh and every choice and order of entities; every history of requests before",
  "src/Omega_h_unmap_mesh.cpp: unmap_mesh, unmap_down, unmap_tags", "src/Omega_h_mesh.cpp: copy_meta")

p("C70", "Renumbering a mesh changes only the numbers, and build_box builds the box",
  "reorder_by_hilbert sorts the vertices along the curve, ties in the order they had, puts the edges, faces and regions in the order of their first vertices, "
  "again with ties in the order they had, moves all tags along, and numbers the entities of each dimension 0, 1, 2, ... in their tag \"global\"; reorder_by_globals sorts the entities of every dimension by their "
  "global numbers. In both cases the result is the same mesh: every entity has the vertices, sides and tag values it had. build_box on one rank, for either family, with symmetric or without, "
  "for any number of cells, never fails, and the mesh it returns is complete, its elements are right side out and fill the box without gaps or overlap, its coordinates are where the "
  "vertices are, its entities are numbered in order and every entity has the class of the part of the box it is on.",
  "all meshes of up to three dimensions, of both families, with all tags and all coordinates; all curves; all sizes of boxes; all interleavings of the threads",
  "tests build boxes of a few cells and compare counts or pictures; whether a renumbering scrambles some alignment or tag shows only on particular meshes",
  "src/Omega_h_reorder.cpp:find_entities_of_first_vertices", "src/Omega_h_reorder.cpp:ent_order_from_vert_order", "src/Omega_h_reorder.cpp:reorder_mesh_by_verts",
  "src/Omega_h_reorder.cpp:reorder_by_hilbert", "src/Omega_h_reorder.cpp:reorder_by_globals", "src/Omega_h_build.cpp:build_box")

p("C71", "Migration moves elements with all they are made of",
  "Give every rank any list of elements, each named by the rank and index of a copy. migrate_mesh then succeeds, whatever the mesh, the family, the number of ranks and the mode, and leaves on every rank copies of "
  "exactly those elements in that order. In every lower dimension a rank gets each entity its elements are bounded by once and nothing else, by increasing global number; the k-th side of a copy is the copy of "
  "the k-th side of the original, with the same alignment code; all tags keep name, type and components, and every copy has the values of its original. Owners: in a partition by elements all copies of an entity name "
  "one of them, on the rank with fewest entities of that dimension, the lowest among equals, and the result is always a usable mesh whose copies agree with their owners in all tags and in the owners of their sides; when ghosting "
  "(and for vertices in a partition by vertices) the owning rank stays, and the same holds if every owner gets a copy, but an entity whose owner gets none names index -1.",
  "all distributed meshes of dimension 1 to 3, of both families, any number of ranks, any tags and owners, any lists of elements, all three modes, all interleavings of the threads that invert maps",
  "the messages and numberings depend on the partition before and after; tests run a few partitions of small boxes on few ranks",
  "src/Omega_h_migrate.cpp:migrate_mesh", "src/Omega_h_migrate.cpp:push_down", "src/Omega_h_migrate.cpp:get_old_owners2uniq_uses", "src/Omega_h_migrate.cpp:form_new_conn",
  "src/Omega_h_migrate.cpp:push_tags", "src/Omega_h_migrate.cpp:push_ents", "src/Omega_h_owners.cpp:update_ownership")

p("C72", "Ghosting and partitioning give every rank exactly its elements",
  "ghost_mesh succeeds on every usable distributed simplex mesh whose copies agree with their owners, for any number of layers above the current one, and afterwards each rank has exactly the elements that can be reached "
  "from those it had in at most that many new steps, a step leading to any element with a vertex in common, wherever it lives; each once, by increasing global number, with the same owners, and the mesh is again usable with agreeing copies. "
  "It refuses to keep or lower the number of layers. On quadrilaterals and hexahedra this holds for one new layer at a time; with more the program aborts. partition_by_verts gives a rank exactly the elements having a vertex it owns; "
  "partition_by_elems leaves it exactly the elements it owns, in their order.",
  "all distributed meshes of dimension 1 to 3, any partition and number of ranks, any number of layers, any numbering and tags, all interleavings of the threads that invert maps",
  "which elements are near a rank depends on the whole mesh, on all ranks and on the partition; tests ghost a few boxes over few ranks by one or two layers",
  "src/Omega_h_ghost.cpp:ghost_mesh", "src/Omega_h_ghost.cpp:close_up", "src/Omega_h_ghost.cpp:close_down", "src/Omega_h_ghost.cpp:push_elem_uses", "src/Omega_h_ghost.cpp:get_own_verts2own_elems",
  "src/Omega_h_ghost.cpp:partition_by_verts", "src/Omega_h_ghost.cpp:partition_by_elems")

p("C73", "Changing the partition changes nothing but where things are",
  "From any partition of a usable distributed mesh, set_parting brings it to any other that may be asked for (by elements, by vertices, or with layers of ghosts: any number of simplices, one of hypercubes), and so does any sequence of requests. "
  "Afterwards each rank has exactly the elements of that partition: those it owns, those with a vertex it owns, or those at most as many steps away from what it owns as there are layers, whatever the partitions before. "
  "Every entity that was on some rank is still on some rank and nothing is new; copies of an entity have its tags and its sides in the same order, and are copies of the same entity as before. "
  "With several ranks it refuses layers in a partition by elements, anything but one layer by vertices, and ghosting with no layer; and two or more layers of hypercubes at a time end the program.",
  "all distributed meshes of dimension 1 to 3, any number of ranks, any partition they are in, any sequence of requests, all interleavings of the threads that invert maps",
  "an entity lost or a tag moved to another entity needs a particular mesh, partition and history to show; tests go through a few sequences on boxes",
  "src/Omega_h_mesh.cpp:set_parting", "src/Omega_h_ghost.cpp:ghost_mesh", "src/Omega_h_ghost.cpp:partition_by_verts", "src/Omega_h_ghost.cpp:partition_by_elems", "src/Omega_h_migrate.cpp:migrate_mesh")

p("C74", "Balancing deals every element to exactly one rank and changes nothing else",
  "On a number of ranks that is a power of two, Mesh::balance brings a usable distributed mesh, in any partition, to a partition by elements in which every element is on exactly one rank. "
  "The recursive bisection hands out every element exactly once, its centre, mass and owner staying together, marked elements going to the second half of the ranks and the others to the first at every level, whatever marks the inertial bisection chooses; "
  "each rank then has exactly the elements handed to it. Nothing else changes: every entity is still there with its tags and sides, nothing is new, copies of one entity remain copies of one entity. "
  "On any other number of ranks above one the program aborts, whatever the mesh.",
  "all distributed meshes of dimension 1 to 3, any partition, any number of ranks, any centres, masses and marks, all interleavings of the threads that invert maps",
  "elements are lost, doubled or separated from their data only for particular marks and depths of the recursion; tests balance a few boxes on one, two or four ranks",
  "src/Omega_h_mesh.cpp:balance", "src/Omega_h_inertia.cpp:recursively_bisect", "src/Omega_h_bipart.cpp:bi_partition", "src/Omega_h_dist.cpp:set_dest_globals", "src/Omega_h_migrate.cpp:migrate_mesh")

p("C75", "Classification is completed from what is given, and given entities are classified",
  "On one rank finalize_classification gives every entity of a mesh a class, the dimension and identifier of the model entity it is on. Elements keep what is given. Below, the class of an entity follows from what is given of it and from the classes of the entities one dimension up that it bounds: "
  "the least dimension among them, with the identifier that those of that dimension share; if they have several identifiers, one dimension less and no identifier; and, if what they join is not shared by two of them, the entity's own dimension and no identifier. "
  "Class dimensions lie between those of the entity and the mesh and never grow towards the boundary; equal dimensions mean equal identifiers; given classes of the entity's own dimension stay; a side is in a region exactly if it is between two elements of it. Completing again changes nothing, and the result does not depend on the schedule. "
  "If no identifiers are given none are added. If of the entities around some have identifiers and others of the same dimension do not, the result depends on their order (in the relaxed form of project_classification it does not). "
  "classify_equal_order gives each entity described by its vertices the class given for it and every other entity none; with the elements of a mesh of three or more quadrilaterals or of any hexahedra it aborts.",
  "all meshes of dimension 1 to 3 with any classes given in any dimensions, all interleavings of the threads that invert maps, all orders of the entities around",
  "the rules interact over four dimensions and with what is given; tests look at a few boxes whose classification is known",
  "src/Omega_h_class.cpp:finalize_classification", "src/Omega_h_class.cpp:project_classification", "src/Omega_h_class.cpp:classify_equal_order")

p("C76", "Replacing entities of a mesh gives a right mesh",
  "Refinement, coarsening and swapping rebuild a mesh from entities that stay and from new ones put in their place (modify_conn, dimension after dimension). If the new numbers are a numbering of all of them, what stays stays with its sides, and the new entities have distinct vertices that exist and each of their sides is exactly one entity of the new mesh, "
  "then nothing undefined is done; the new mesh has exactly the entities that stay, with their vertices renumbered, and the new ones, with their vertices; every entity's sides and orientation codes are right, so that all adjacencies of C32 are; and whatever was asked of the old mesh before makes no difference. There are interleavings in which it ends.",
  "all meshes of either family and dimension 1 to 3, all sets of entities that stay, all replacements that fit, all new numbers, all interleavings of the threads that invert maps",
  "a code or side that is wrong for one orientation or one order of numbers leaves most meshes intact; tests adapt a few boxes and look at qualities and volumes",
  "src/Omega_h_modify.cpp:modify_conn", "src/Omega_h_refine.cpp:refine_element_based", "src/Omega_h_coarsen.cpp:coarsen_element_based2", "src/Omega_h_swap2d.cpp:swap2d_element_based", "src/Omega_h_swap3d.cpp:swap3d_element_based")

p("C77", "Splitting edges gives the mesh of the halves, and data is inherited from where it was",
  "Splitting any set of edges, no two in one element, of a mesh of simplices in which no two entities have the same vertices, on one rank, is defined and gives such a mesh again. Its entities are exactly, one of each: every old entity without a split edge, with the same vertices; for every entity with a split edge its two halves, in each of which one end of the edge is replaced by the new vertex and the orientation is kept; and for every entity with a split edge the part between the halves, made of the new vertex and the vertices off the edge. "
  "Values of tags that are inherited, such as the classification, are at every new entity those of the old entity it lies in. The old mesh stays the same mesh. There are interleavings in which refinement ends. Every mesh built from distinct simplices is such a mesh.",
  "all simplex meshes of dimension 1 to 3, all sets of edges of which no element has two, all tags of any width, all interleavings of the threads that invert maps",
  "which halves share a face, and in which order, depends on the position of the edge in every element around it and on the numbers; tests refine a few meshes and compare counts or sizes",
  "src/Omega_h_refine.cpp:refine_element_based", "src/Omega_h_refine_topology.cpp:refine_products", "src/Omega_h_modify.cpp:modify_ents_adapt", "src/Omega_h_modify.cpp:modify_conn", "src/Omega_h_transfer.cpp:transfer_inherit_refine")

p("C78", "Swapping edges of a triangle mesh gives the mesh with the other diagonals",
  "Take edges of a mesh of triangles, in which no two entities have the same vertices, each with exactly two triangles that lie on its two sides, no triangle having two of them, such that no edge between the opposite corners exists already (other than one that is swapped away) and none is asked for twice. Swapping them together, on one rank, is defined and gives such a mesh again. Its entities are exactly, one of each: all vertices under their numbers; every old edge and triangle without a swapped edge, with its vertices as they were; for every swapped edge the edge between the opposite corners and the two triangles that it makes with the old ends, turned the same way round as the old triangles. "
  "Values of inherited tags stay with what stays, and what replaces an edge gets the values of that edge. The old mesh stays the same mesh. There are interleavings in which it ends.",
  "all triangle meshes, all sets of edges that can be swapped together, all tags of any width, all interleavings of the threads that invert maps",
  "the result depends on how both triangles of every edge are numbered and turned and on the numbers around them; tests swap one diagonal of a square",
  "src/Omega_h_swap2d.cpp:swap2d_element_based", "src/Omega_h_swap2d_topology.cpp:swap2d_topology", "src/Omega_h_modify.cpp:modify_ents_adapt", "src/Omega_h_modify.cpp:modify_conn", "src/Omega_h_transfer.cpp:transfer_inherit_swap")

p("C79", "Collapsing edges gives the mesh in which the vertices that go have become the others",
  "Take vertices of a mesh of simplices in one, two or three dimensions, in which no two entities have the same vertices, and for each of them one of its edges, along which it goes onto the other end, such that no edge has two vertices that go, no two entities that stay on their own get the same vertices, and every entity that does not lose a dimension ends up in one of the next dimension that does not either. Collapsing them together, on one rank, is defined and gives such a mesh again. Its entities are exactly, one of each, the old ones that neither have both ends of a collapse nor, having a vertex that goes, are part of one of the next dimension that does; each with the vertices that its vertices became, in the same order. Every old entity that does not have both ends of a collapse is there under its new vertices. "
  "Values of inherited tags stay with their entities. The old mesh stays the same mesh. There are interleavings in which it ends.",
  "all meshes of simplices, all sets of vertices and edges that can be collapsed together, all global numbers of edges, all tags of any width, all interleavings of the threads that invert maps",
  "which entities vanish, which merge and which number is whose depends on every collapse around; tests collapse one or two edges of small meshes",
  "src/Omega_h_coarsen.cpp:coarsen_element_based2", "src/Omega_h_collapse_rail.cpp:find_rails", "src/Omega_h_coarsen_topology.cpp:mark_dead_ents", "src/Omega_h_coarsen_topology.cpp:find_coarsen_domains", "src/Omega_h_coarsen_topology.cpp:coarsen_topology", "src/Omega_h_modify.cpp:modify_ents_adapt", "src/Omega_h_transfer.cpp:transfer_inherit_coarsen")

p("C80", "Swapping edges of a tetrahedral mesh gives the mesh in which their rings are cut anew",
  "Take edges of a mesh of tetrahedra, in which no two entities have the same vertices, each inside a closed ring of three to seven tetrahedra, no tetrahedron having two of them, and for each a way to cut the polygon of the ring's outer vertices into triangles along diagonals, such that no diagonal exists already as an edge (other than one that is swapped away), none is asked for twice, and the same for the triangle that replaces an edge of three tetrahedra. Swapping them together, on one rank, is defined and gives such a mesh again. Its entities are exactly, one of each: all vertices under their numbers; every old edge, triangle and tetrahedron without a swapped edge, with its vertices as they were; for every swapped edge the diagonals, the triangle of each diagonal with each end of the edge, the triangles of the cut, and the tetrahedron of each of these with each end, turned the same way round as the old ones. "
  "Values of inherited tags stay with what stays, and what replaces an edge gets the values of that edge. The old mesh stays the same mesh. There are interleavings in which it ends.",
  "all tetrahedral meshes, all sets of edges that can be swapped together, all configurations of each, all tags of any width, all interleavings of the threads that invert maps",
  "what is made depends on the numbering and turning of all tetrahedra of every ring, on the configuration and on the numbers around; tests swap one edge",
  "src/Omega_h_swap3d.cpp:swap3d_element_based", "src/Omega_h_swap3d_topology.cpp:swap3d_keys_to_prods", "src/Omega_h_swap3d_topology.cpp:swap3d_topology", "src/Omega_h_swap3d_loop.hpp:find_loop", "src/Omega_h_modify.cpp:modify_ents_adapt", "src/Omega_h_modify.cpp:modify_conn", "src/Omega_h_transfer.cpp:transfer_inherit_swap")

p("C81", "Choosing what to collapse keeps the classification and takes the shortest edge",
  "Choosing, on one rank, among marked vertices of a mesh of simplices the ones to collapse, with a classification of all entities and any further checks that forbid single collapses, is defined. Its candidates are exactly the marked vertices that have an edge along which they may go: the vertex is classified on the same dimension as the edge, each entity at the edge, of any dimension, is classified on the same dimension as its side opposite the end that stays, and all further checks allow it. The edge chosen for a candidate is one of these; none of them is shorter, and none as short is of higher quality. If it reports nothing to coarsen then no marked vertex may go. "
  "When any of the candidates then go along their edges, every entity that is lost without losing a dimension is classified on the same dimension as an entity of the next dimension at it that is lost too, so no part of a boundary vanishes.",
  "all meshes of simplices, all classifications, marks, lengths, qualities and further checks, all sets of candidates, all interleavings of the threads that invert maps",
  "the codes pass through half a dozen filters, each renumbering the candidates, and the sides compared depend on how each entity numbers and turns the edge; tests look at a square and a cube",
  "src/Omega_h_coarsen.cpp:coarsen_verts", "src/Omega_h_coarsen.cpp:coarsen_ghosted", "src/Omega_h_check_collapse.cpp:check_collapse_class", "src/Omega_h_check_collapse.cpp:check_collapse_exposure", "src/Omega_h_coarsen_qualities.cpp:filter_coarsen_dirs", "src/Omega_h_collapse_rail.cpp:choose_rails")

p("C82", "Reading the command line takes exactly the words it should",
  "Whatever flags and required arguments a program has added and whatever it has read before, reading a command line ends and does nothing undefined. If no two flags share a name it succeeds exactly if the words can be read as follows with no required argument missing: the name of a flag not given before takes the right number of the next words as its values, whatever they are; --help is noted and left; any other word is the next required argument, or is left. Then the values that can be asked for are those words and the line holds the words left, in order. "
  "The one exception is that a line is rejected if its last word is taken as the last value of a flag and is also the name of a flag that was added later, so whether a line is accepted can depend on the order in which flags were added.",
  "all sequences of adding flags and arguments and reading lines, all lines of words, whatever lies in memory behind the line",
  "words are shifted out of the array while the flags are still being compared with what is then at the same place; tests use few flags and never a value that is a flag's name at the end of the line",
  "src/Omega_h_cmdline.cpp:CmdLine::parse", "src/Omega_h_cmdline.cpp:CmdLine::parse_final", "src/Omega_h_cmdline.cpp:CmdLineFlag::parse_impl", "src/Omega_h_cmdline.cpp:CmdLine::get", "src/Omega_h_cmdline.cpp:shift")

p("C83", "Marks for refining and derefining hypercube meshes",
  "When marks for refinement are extended so that neighbouring leaves differ by at most one level, every marked leaf and every leaf beside a finer marked element is marked in the result, for every schedule, and nothing undefined happens; it aborts exactly if a part of a refined side at which an unmarked leaf looks does not have one element. What else is marked is beside a finer element that is marked for such a reason, or beside one in whose entry of the new array something happened to lie: with several levels the result depends on the schedule, and because the array is not initialised a leaf can be marked although nothing was. "
  "If the array is zero and there are no chains of levels the result is exactly the marked leaves and those beside finer marked elements. To be refined are, in every dimension, exactly the leaves with a marked element. Derefining drops exactly the leaves among the children of marked elements, whatever the schedule, and of other dimensions the leaves with no element that persists, so all sides of elements that persist do.",
  "all meshes of hypercubes, all marks, all interleavings of the iterations, all contents of the new array before",
  "the iterations read entries other iterations write and entries nobody has written; tests run them in order with memory that happens to be zero",
  "src/Omega_h_amr.cpp:enforce_2to1_refine", "src/Omega_h_amr.cpp:should_elem_be_refined", "src/Omega_h_amr_topology.cpp:mark_refined", "src/Omega_h_amr_topology.cpp:mark_persisting_elems", "src/Omega_h_amr_topology.cpp:mark_persisting_ents", "src/Omega_h_array_ops.cpp:land_each")

p("C84", "Separating cavities by colour and status",
  "When what each modified key removes and adds (its cavity: old and new elements) is separated by colour, the separation ends after finitely many rounds, and for every key the rounds partition its old and its new elements: nothing is lost or there twice, a part with an old element has elements of its colour only, all elements of that colour are in this part, and the new elements of colours no old element has are in one part without old elements. "
  "This needs that no key has more than 127 old or new elements: with 128 of one colour the separation ends and every old element of the cavity is lost. Before that the cavities are divided, in the order of their keys, into exactly those that do not touch the boundary, those that touch it without having their key on it, and those whose key is on it; every cavity is in one of them. An element touches the boundary exactly if one of its vertices is classified on it.",
  "all cavities, all colours, all classifications",
  "conservation of integrals depends on every element being accounted for once whatever the colours and the sizes of cavities; tests conserve on a few meshes with one or two colours",
  "src/Omega_h_conserve.cpp:separate_by_color_once", "src/Omega_h_conserve.cpp:separate_by_color", "src/Omega_h_conserve.cpp:separate_cavities", "src/Omega_h_conserve.cpp:get_elems_are_bdry", "src/Omega_h_conserve.cpp:unmap_cavs", "src/Omega_h_graph.cpp:filter_graph_edges")

p("C85", "The children of refined edges, squares and cubes",
  "When edges, squares and cubes are refined, the number of new entities of each dimension is counted exactly, and the array of vertices of the new edges, squares or cubes has exactly that many entries, all of them set: each vertex of each child of each refined entity is the new vertex in the middle of the side, corner or interior that the template names, namely the one the refinement of that side makes now, or its only child vertex if it was refined before. Corners at one side are one vertex, so children of neighbours fit. It aborts exactly if such a side is not refined now and does not have exactly one child vertex; nothing is read or written outside of the arrays.",
  "all meshes of hypercubes of dimension 1 to 3, all choices of entities to refine, all earlier refinements, all ways to divide the count among threads",
  "whether sizes, offsets per dimension and templates agree depends on which mix of dimensions and earlier refinements meets; tests refine a handful of elements",
  "src/Omega_h_amr_topology.cpp:count_refined", "src/Omega_h_amr_topology.cpp:get_refined_topology", "src/Omega_h_hypercube.hpp:hypercube_split_template", "src/Omega_h_amr.cpp:refine")

p("C86", "What refined edges, squares and cubes hand on to their children",
  "After refining edges, squares and cubes, every new entity is one level finer than the entity it is a child of, is a leaf, has that entity's new number as parent and a code that gives the parent's dimension and which child it is, and has the old value of that entity in every inherited tag of one component. Every entity that stays keeps its level, code and inherited values, and its parent under the parent's new number; it keeps its leaf flag unless it was refined, in which case it is no leaf any more. All arrays are read and written within bounds and completely set. For inherited tags of more than one component this fails: the new arrays have one entry per entity, so entries are written behind their end.",
  "all meshes of hypercubes of dimension 1 to 3, all choices of entities to refine, all numberings of the new entities, all levels below 127, all earlier parents and tag values",
  "whether offsets per dimension, numbers of children and renumberings agree depends on which dimensions are refined together and how new entities are numbered; tests refine one or two elements and inherit tags of one component",
  "src/Omega_h_amr_transfer.cpp:transfer_levels", "src/Omega_h_amr_transfer.cpp:transfer_leaves", "src/Omega_h_amr_transfer.cpp:transfer_parents", "src/Omega_h_amr_transfer.cpp:transfer_inherit", "src/Omega_h_amr.hpp:make_code")

p("C87", "Refining a mesh of edges, squares or cubes as a whole",
  "Refining a marked mesh of edges, squares or cubes never reads or writes out of bounds. It stops with an error exactly if a corner of a child lies in the middle of an entity that is neither refined now nor has exactly one child vertex from before. Otherwise every old entity stays and every new one is either an old one or one particular child of one marked entity. New numbers are 0, 1, 2, ... without gaps: old entities keep their order, children of one entity are consecutive, and they come behind the entity that represents their parent and before the next old entity. The corners of each child are the new vertices in the middle of the parent's sides that the template names, the same for all children and neighbours that meet there. Levels, leaf flags, parents and inherited values of one component are those of the entity or of its parent, as listed in C86, with parents under their new numbers.",
  "all consistent meshes of hypercubes of dimension 1 to 3 on one rank, all marks in which vertices of marked entities are marked, all children and parents from earlier refinements, all levels below 127, all thread schedules of the counting reductions",
  "whether counts, offsets, numberings, middles and transfers fit together depends on which dimensions are refined together and on earlier refinements; tests refine a box uniformly or along a surface and look at pictures or totals",
  "src/Omega_h_amr.cpp:refine_elem_based", "src/Omega_h_modify.cpp:modify_ents", "src/Omega_h_amr_topology.cpp:get_refined_topology", "src/Omega_h_amr_transfer.cpp:transfer_parents", "src/Omega_h_array.cpp:fill_linear")

p("C88", "Parents and leaf flags when entities are taken away or renumbered",
  "When entities of a mesh with parents are picked and renumbered (derefining, reordering), every kept edge, square or cube keeps its parent, under the parent's new number and with its code, exactly if the parent is kept too; otherwise it has no parent and code 0. What was a leaf stays one; what was none becomes a leaf exactly if none of its children of its own dimension is kept. Nothing is read out of bounds, whatever schedule the kernels that look up children run under. This holds for edges and higher entities only: parents of vertices are dropped even if they are kept, so afterwards the vertex in the middle of a refined side is no longer found.",
  "all meshes of dimension 1 to 3 on one rank, all parents whose entities exist, all choices and orders of entities to keep, all leaf flags, all schedules of the kernels",
  "which parents and children survive depends on the choice of entities in all dimensions together; the test derefines one element of a uniformly refined mesh and does not refine afterwards",
  "src/Omega_h_unmap_mesh.cpp:unmap_parents", "src/Omega_h_unmap_mesh.cpp:unmap_leaves", "src/Omega_h_unmap_mesh.cpp:unmap_mesh", "src/Omega_h_mesh.cpp:has_any_parents")

if __name__ == "__main__":
    with open("/verif/properties.jsonl", "w") as f:
        for x in P: f.write(json.dumps(x) + "\n")
    print(len(P))
