# Formal model of sandialabs/omega_h in Rocq (Coq 8.16.1)

Source modelled: `/repo/src` at the pinned commit, read as text. Nothing is built or run.

## Layout

- `rocq/theories/Prelude.v`      result monad (Ok / Abort / UB), checked array access
- `rocq/theories/M_*.v`          the model: one Gallina definition per C++ function, with file:line citations
- `rocq/theories/S_*.v`          small independent specifications
- `rocq/theories/P_*.v`          lemmas and proofs
- `rocq/theories/T_*.v`          the property theorems only, each closed by `exact`, with examples and `Print Assumptions`

## Modelling conventions

- A C++ call has one of three outcomes: `Ok v`, `Abort` (OMEGA_H_CHECK / Omega_h_fail: the process dies
  with a message), `UB` (undefined behaviour: out-of-bounds access, signed overflow where modelled,
  division by zero, use after free). A theorem that says a call returns `Ok v` therefore also says
  there is no undefined behaviour.
- Arrays (`Read<T>`, `Write<T>`) are lists. An index is a `Z`; a negative or too large index is `UB`.
- `LO`/`GO` are `Z`. 32/64-bit overflow is modelled where the property is about it (Int128, base64,
  Hilbert, byte order, scans); elsewhere the mathematical integers are used and the comment says so.
- A kernel run by `parallel_for` is modelled by the writes of each iteration; determinism under
  interleaving is a theorem (C48), after which the sequential order stands for all orders. Kernels with
  atomics are modelled with an explicit schedule.
- MPI is modelled as a vector of per-rank states with explicit message delivery.
- Floating point is not modelled bit by bit; geometry theorems are over exact rings, selection
  theorems over an arbitrary order.

## Plan per property

| id | modelled | proof idea |
|----|----------|-----------|
| C01 C02 | base64.cpp byte by byte | round trip by induction on triples; C02 is false: a byte >= 128 indexes the table out of bounds (`_refuted`) |
| C03 | pool.cpp as a state machine with an oracle malloc | invariant over all histories |
| C04 C05 | shared_alloc as heap of records | invariant; C05 false: `last` is not updated (`_refuted`) |
| C06 | linpart.cpp | division lemmas |
| C07 C08 | int128, repro_sum over a fixed-point abstraction | modular arithmetic; commutative monoid fold |
| C09 | hilbert.hpp over bit vectors | involutions, induction on bits |
| C10 | scan.hpp incl. OpenMP chunks | induction, chunk decomposition |
| C11 C12 C15 | map.cpp | list algebra; schedules as permutations of iterations |
| C13 C14 | sort.cpp | stable sort specification |
| C16 | graph.cpp | adjacency list refinement |
| C17 | align.hpp | finite group, lifted to all tuples |
| C18-C21 | adj.cpp | refinement to sets of alignments; schedules |
| C22 | simplex/hypercube templates | complete finite enumeration in the kernel |
| C23-C26 C49 C50 | dist, comm, owners, globals, bipart over rank vectors | refinement, protocol invariant |
| C27 | indset.cpp and its kernel over ranks with ghosts | the unique greedy set, by induction on the order; rounds decrease a measure |
| C28 C29 | file.cpp byte by byte: values, arrays, strings, meshes; streams with a failed state; uninitialised memory | each reader meets its writer's bytes, with anything after and cut anywhere (P_File2 `meets`), closed under sequencing and loops |
| C30-C31 | mesh.cpp tag table, invalidation rules, cached lengths/qualities/sizes | refinement to the last store of a history; false clauses refuted |
| C32 | mesh.cpp adjacency cache, derive_adj; parents.cpp | soundness invariant of the cache, independent of the request history; false clauses refuted |
| C33 | future.cpp | state machine; completed() inverted (`_refuted`) |
| C34 | modify.cpp numbering | offsets of groups partition the range |
| C35 C37 C39 | refine/swap topology | ring identities over all coordinates |
| C36 C38 C40 | swap3d tables, choice, loop | complete finite enumeration; fold invariants |
| C41 C47 | coarsen topology, mark | list algebra |
| C42 | coalesce | false: reads one array too many (`_refuted`) |
| C43 | xml_lite | automaton; self-closing without blank is misread (`_refuted`) |
| C44 C45 | filesystem | string laws; remove_all follows links (`_refuted`) |
| C46 | profile history | tree invariant |
| C48 | parallel_for | interleaving lemma |
| C51 | hypercube split templates | complete finite enumeration; the tiles cover the parent exactly |
| C52 C53 | array_ops.cpp reductions and maps, for any back end that reduces in some tree order | tree folds of associative operations |
| C54 C55 | mark.cpp layers and class marking | induction on the layers; closed form by distance |
| C56 | across (star) adjacency, graph unions | list refinement |
| C57 | automata tables and their combination (M_Automaton) | runs of the result correspond to runs of the parts |
| C58 | the subset construction with its work queue | invariant of the queue, induction on words |
| C59 | merging equal rows until none are equal | simulation per round, measure on the number of states |
| C60 | semantic actions of regular expressions, lexers of languages | structural induction on expressions |
| C61 | the reader's character loop (M_Lexer) | invariant of the scan, induction on the text left |
| C62 | language to grammar (M_Grammar) | symbol numbering is one to one; trees carried over by mutual induction |
| C63 | LR(0) states, adequacy, contexts, tables, reading (M_Parser, M_Lanes) | closure and transition loops build item sets; stack invariant: a tree for each value |
| C64 | tables of the four languages (M_Languages) | completeness by induction on trees for lookahead-covering tables; first sets, lookaheads and a rank of the states computed and checked in the kernel, the checkers proved |
| C65 | building a mesh from elements on one rank (M_Build) | find_unique and reflect_down compose: edges of faces of elements are edges of elements (template sweep); the mesh is the end of a history of C32 |
| C66 | splitting of quadrilaterals and hexahedra (M_Simplify) | find_min by induction; the functions are natural in the vertices, so eight places of the smallest vertex times eight combinations of diagonals decide; rows land by the scan (C10) |
| C67 | box meshes (M_Box): grids, plain and symmetric splits, coordinates counted in half cells | a mesh is a layout of the same pieces in every cell; a table of pieces is checked once (each side of a piece is met by one other piece of the cell, of the cell next to it, or lies on the surface), which decides boxes of every size; faces of hexahedra found by C65 give the middles of the symmetric split |
| C68 | classification of boxes (M_BoxClass), centroids in exact rationals | at most 8 vertices, each at least half a cell from a side it is not on, so the mean is 1/16 of a cell or more away from it; entities of elements of positive size are not flat along too many axes |
| C69 | unmap_mesh with its tags (M_Unmap) | the inverse of an injective list sends what is listed to its position; vertices of what is listed are listed by induction on the dimension; rows, codes and alignment are carried over entry by entry; a permutation loses no side |
| C70 | reordering along a curve and by global numbers, build_box (M_Reorder) | stable sort (C13) and stable inversion (C12) give the orders; a permutation of all entities is a case of C69; filling and classification (C67, C68) are carried over to the new numbers |
| C71 | all of migrate.cpp over all ranks (M_Migrate), on the distributors of C23 and the owners of C25 | each distributor is a link between copies and originals (P_Link); the kept uses are one per rank and owner, by an invariant of the marking kernel; induction over the dimensions; the usable result from what was moved |
| C72 | all of ghost.cpp over all ranks (M_Ghost), on the migration of C71; what ask_down and ask_up answer is a parameter that has to be right | links of copies to originals as in C71; the pushed uses are the product of two fans, by an invariant of the kernel; induction over the layers; owners are present because a rank keeps what it had |
| C73 | Mesh::set_parting (M_Parting) on C71 and C72 | S_Parting says when two distributed meshes are the same mesh; that relation holds across every migration that leaves each element somewhere, and composes; layers add up (P_Parting2); induction over the requests |
| C74 | Mesh::balance and recursively_bisect (M_Balance) on C50, C71, C73 | induction over the depth of the bisection: deals compose and stand side by side (P_Balance); setting the order of a distributor again keeps it a distributor (P_Balance2); elements on one rank each own themselves, so the owners dealt name the elements (P_Balance3) |
| C75 | finalize_classification, project_classification and classify_equal_order (M_Class) on C20, C32 | the loop over the entities around keeps an invariant on what they join, first over a list and then through the adjacency (P_Class, P_Class2); each dimension is one application, from the top (P_Class3, P_Class4); the vertices of the described entities are matched by C20 (P_Class5) |
| C76 | modify_conn and the loop over dimensions (M_RefineMesh) on C20, C32 | what is asked of a replacement is one small record (S_Rebuild.fits); the vertices of the rebuilt entities are computed (P_Rebuild), sides are found by C20 among them and unique because they fit (P_Rebuild2), dimension after dimension (P_Rebuild3) |
| C77 | refine_element_based and transfer_inherit_refine (M_RefineMesh) on C34, C35, C76 | an entity made by a split is its edge and the vertices beside the new one, a partial simplex; origins and partial simplices correspond (P_RefineMesh1, 3, 4); sides of partial simplices are partial simplices or kept entities, so the replacement fits (P_RefineMesh5); numbers by C34, rows by C35 (P_RefineMesh2, 4, 6); tag values are a scatter by origin (P_RefineMesh7); together (P_RefineMesh8); built meshes meet the hypotheses (P_RefineMesh9) |
| C78 | swap2d_element_based and transfer_inherit_swap (M_Flip) on C34, C39, C76 | replacements without new vertices that fit are characterised by the vertex sets of the new entities, and the rebuilt mesh is assembled from what stays and what is new (P_Patch); the two triangles of an edge are found by C39 (P_Flip1); new edges and triangles are new and made once (P_Flip2); sides of the new triangles are the new edge or edges around, which stay (P_Flip3); numbers by C34, tag values by expansion of those of the edges (P_Flip4); together (P_Flip5) |
| C79 | coarsen_element_based2, find_rails, transfer_inherit_coarsen and transfer_no_products (M_Collapse) on C34, C41, C76 | what falls has something that takes its place (P_Collapse1); the old entities that have a vertex that goes and do not fall, moved, fit beside those that have none, by P_Patch (P_Collapse2); what the old mesh answers about vertices and sides is what C41 needs (P_Collapse3); rails, marks and numbers (P_Collapse4); domains and products (P_Collapse5); together (P_Collapse6) |
| C80 | swap3d_element_based (M_Recut) on C34, C36, C37, C38, C76 and the steps of C78 | the ring of an edge is determined by the mesh and is what find_loop finds (P_Recut1); what every configuration makes, in labels, by a sweep over the table (P_Recut2); new edges and triangles are new and made once (P_Recut3); they fit by P_Patch (P_Recut4); products, numbers and tag values (P_Recut5); together (P_Recut6) |
| C81 | coarsen_verts, coarsen_element_based1, coarsen_ghosted up to the independent set, check_collapse_class, check_collapse_exposure, filter_coarsen_candidates, filter_coarsen_dirs, choose_rails (M_Choose) | candidates and codes are a set of (edge, end) pairs; collecting, filtering and putting back keep it (P_Choose1); each check cuts it down by its condition, the exposure check through dead_pair as in C41 (P_Choose2); the loop over the edges of a vertex keeps the best seen so far; what falls (C79) is a side opposite to what stays (P_Choose3) |
| C82 | shift, CmdLineItem/Arg/Flag/CmdLine parse and parse_impl, parse_final, check_empty, add_flag, add_arg, parsed, get (M_CmdLine) | the array is what was stepped over, the words to come and what lies behind; one pass over the flags reads one or more flags of the grammar or fails, with the stale last word behind the line followed through it (P_CmdLine1); induction over the words (P_CmdLine2); the grammar determines where values come from (P_CmdLine3) |
| C83 | should_elem_be_refined, enforce_2to1_refine, mark_leaf_down, mark_refined, mark_persisting_elems, mark_persisting_ents, land_each (M_Amr) | the shared arrays are memory and each iteration a program of reads and writes (M_Par), with any content before; an invariant of every thread gives bounds from below (marked leaves, leaves beside finer marked ones) and above (closure); two refutations on a mesh generated from coordinates; derefining by an invariant in which every write writes 0 |
| C84 | separate_by_color_once, separate_by_color, separate_cavities, get_elems_are_bdry, unmap_cavs, land_each (M_Cavs) | each round takes the elements of the first old colour of every key and leaves the rest; induction over the number of elements left gives that it ends and that the parts are a partition by colour; one refutation with 128 elements |
| C85 | count_refined, get_refined_topology (M_AmrTopo) | the nested loops append blocks: each loop equals the concatenation of the blocks of its iterations, or the first failure; a sweep over the templates gives that sides are in range; counts by running the loops on symbolic sums |
| C86 | transfer_levels, transfer_leaves, transfer_parents, transfer_inherit, make_code (M_AmrTransfer) | the nested loops over products are flattened to one loop over a list whose places are 0, 1, 2, ...; a scatter to different places is then described by one lemma, and each transfer is a chain of scatters that do not overlap; inheriting by an invariant over dimensions and products |
| C87 | refine_elem_based on one rank (M_AmrRefine), on top of M_Modify, M_AmrTopo and M_AmrTransfer | the product offsets are a numbering in the sense of C34, so the kept-entities theorem for modify_ents gives numbers that C85 and C86 take as given; the drivers' hypotheses are discharged from the mesh and the marks alone |
| C88 | unmap_parents, unmap_leaves, has_any_parents and their part of unmap_mesh (M_UnmapFamily) | one invariant over the dimensions for the parents set so far, one for the children asked so far; that a kept entity has children left is carried over to the inverted new parents |

Revised while proving: C05 (allocation tracking: exact characterisation for stack-like histories and a `_refuted`
theorem outside them), C09 (bijection and neighbouring cells, sort by curve position), C23 (the order of the items of
one destination index depends on the schedule of the atomic inversion), C34 (numbers are unique when keys are
independent).

What cannot be expressed: performance, floating-point accuracy of the geometric kernels, the behaviour
of third-party libraries (zlib, MPI, EGADS, Exodus) beyond the assumed contracts.

## Trusted base

- Coq 8.16.1: its kernel, including the `vm_compute` conversion used for complete finite enumerations.
- Axioms: every theorem listed in MANIFEST.json is followed by `Print Assumptions` in its T_ file, and for each of them
  Coq answers `Closed under the global context`: no axiom is used, neither our own nor one of the standard library.
  (Files that load mathcomp's ssreflect see its module `Coq.ssr.ssrunder.Under_rel`, which no theorem depends on.)
- The reading of the C++ by which the M_ files were written. Each definition cites the lines it stands for, and says
  where it simplifies. seeded/LOG.jsonl records which theorems fail when a definition is changed the way a bug would.
- The meaning given to the world outside: MPI collectives (every rank calls them in the same order; a message arrives
  unchanged and exactly once; M_Comm.v, M_Dist.v, M_Nbx.v), malloc (an oracle returning fresh disjoint blocks or null),
  the memory model of kernels (each atomic operation or plain access is one step, steps interleave arbitrarily; M_Par.v),
  the file system (M_Remove.v: a tree with links), input streams (M_File.v: a short read stores what is there, later reads
  nothing), zlib (a parameter that restores what it compressed).

## Modelled and not modelled

Modelled: the functions cited in the M_ files. The table above says by file which ones. Everything else in /repo/src is
not modelled, in particular: anything whose result is a floating-point number computed by rounding (qualities, metrics,
eigenvectors, transfer of fields by formulas, conservation except the separation of cavities), the readers and writers of third-party formats (gmsh, exodus, vtk,
meshb, adios), indentation-sensitive reading, the actions of the expression language, Dist::iexch and change_comm, mesh adaptation drivers (adapt.cpp; the choice of edges by quality in refine.cpp; the floating-point checks in the choice of vertices in coarsen.cpp; the choice of edges and configurations by quality in swap3d.cpp), CUDA back
ends, Python bindings.

## Defects found in the code while modelling

Each of the first group has a `_refuted` theorem or is part of the statement of the property.

- simplify: hex_bur_ring is {1, 2, 3, 7, 5, 4} where the ring around the diagonal is {1, 2, 3, 7, 4, 5}: hexahedra that
  have to be turned get inverted and flat tetrahedra (C66).  Boxes never have to be turned.
- base64: a byte >= 128 in the input of decode indexes the table out of bounds (C02).
- shared_alloc: Alloc::init does not update `last` when the list is not empty, so unlinking in another order loses
  entries; History's copy leaves fields uninitialised (C05).
- future: completed() answers the opposite (C33).
- coalesce reads one array past the end (C42).
- xml_lite: `<Foo/>` is reported as a start tag (C43).
- filesystem: remove_all follows links to directories; status gives sockets and devices a wrong type; parent_path of a
  path without separator is the path itself; is_symlink is never true (C44, C45).
- tags: get_tag accepts i = ntags and reads out of bounds (C30); cached lengths and qualities go stale when coordinates
  or metric are removed or stored as internal (C31).
- unmap_mesh: a tag without an array is read out of bounds (C69).
- mesh: children asked for before set_parents stay as they were; children of vertices are looked up out of bounds
  for orphans (C32); elements_across_sides and edges_across_tris take every mesh for a simplex mesh (C56).
- finite_automaton: maybe recognises too much when accepting states have moves (C57); simplify is not a minimisation (C59).
- reader: a text ending inside a longer match that fails is refused although it can be cut into tokens (C61).
- build_parser: some LALR(1) grammars are refused, because make_immediate_predecessor_graph does not ask that the dot of
  the second configuration be at its start (C64); grammars with useless symbols may make the reader run for ever (C64);
  a production for the name of a token is silently ignored (C62).
- indset: does not end on adjacent candidates of NaN quality (C27).
- file: the reader never looks at the state of the stream; a truncated file leads to uninitialised variables or to a
  mesh with arbitrary codes (C29); class sets without members are lost (C28).
- ghost: close_down gives every element dim + 1 vertices, so two or more new layers of quadrilaterals or hexahedra end the
  program (C72).
- set_parting: a mesh that is distributed by elements cannot be asked to be ghosted with no layers on several ranks; ghost_mesh aborts (C73).
- balance: aborts unless the number of ranks is a power of two, since bi_partition wants an even number at every level (C74).
- class: classify_equal_order divides the number of vertices by dim + 1 also for quadrilaterals and hexahedra, so classifying
  the elements of three or more quadrilaterals, or of any hexahedra, aborts; project_classification takes an unknown
  identifier for one that differs, or not, depending on the order of the entities around (C75).
- cmdline: the loop over the flags goes on after a flag has been read, and at the end of the line compares the later flags with the
  word that was shifted out; `--name --verbose` is rejected although --name takes a value, if --verbose was added later (C82).
- enforce_2to1_refine allocates one_level_mark without filling it and reads other elements' entries while other iterations write
  them: with three levels the result depends on the schedule, and a leaf can be marked although nothing was, from what lay in the
  memory (C83).
- unmap_parents starts at edges, so picking or renumbering entities drops the parents of all vertices, also of those whose parents
  are kept; refining next to an element that was refined before then stops with an error (C87, C88).
- amr: transfer_inherit allocates one entry per entity whatever the number of components of the tag is, so inheriting a tag of two or
  more components writes behind the end of the new arrays (C86).
- conserve: separate_by_color_once counts the elements kept per key in eight bits (filter_graph_edges), so a cavity with 128 elements of
  one colour loses its old elements without any error (C84, see also C16).
- modify: the numbers of new entities collide when keys are not independent (C34).
- mark_dual_layers forgets the seeds; bcast_string takes the length from rank 0 (C47, C49).
- graph/array_ops: divide_each and ternary_each abort on empty arrays; binary_search overflows beyond 2^30 entries.
- add_into updates with a plain += in a parallel loop; atomic_increment is not atomic when only Kokkos is enabled.
- repro_sum returns early without closing its profiling region.
- regex: build_language gives the unused token for the left end of a range the expression for the right one.
- align: IS_IDENTITY uses & where | is meant.
- Dist: the order of items within a destination depends on the schedule; iexch's callback keeps a pointer to a
  temporary; byte offsets of Neighbor_ialltoallv overflow for buffers of 2 GB; messages of width 0 are refused.
