(** The edge swap tables: src/Omega_h_swap3d_tables.hpp. Generated from the header by
    tools/swap_tables.py: the numbers are copied, one definition per array. A null pointer is the
    empty list. *)
From Verif Require Import Prelude.
Local Open Scope Z_scope.

(** src/Omega_h_swap3d_tables.hpp:9 *)
Definition MAX_EDGE_SWAP : Z := 7.
(** src/Omega_h_swap3d_tables.hpp:10 *)
Definition MAX_UNIQUE_TRIS : Z := 35.
(** src/Omega_h_swap3d_tables.hpp:11 *)
Definition MAX_UNIQUE_EDGES : Z := 26.
(** src/Omega_h_swap3d_tables.hpp:27-43 *)
Definition swap_mesh_sizes : list Z := [0; 0; 0; 1; 2; 3; 4; 5].
(** src/Omega_h_swap3d_tables.hpp:45-61 *)
Definition swap_mesh_counts : list Z := [0; 0; 0; 1; 2; 5; 14; 42].
(** src/Omega_h_swap3d_tables.hpp:293-294 *)
Definition nedges : list Z := [0; 0; 0; 0; 1; 2; 3; 4].
(** src/Omega_h_swap3d_tables.hpp:63 *)
Definition triangles_3 : list (list Z) := [[0; 1; 2]].
(** src/Omega_h_swap3d_tables.hpp:65 *)
Definition meshes_3 : list Z := [0].
(** src/Omega_h_swap3d_tables.hpp:67-68 *)
Definition triangles_4 : list (list Z) := [[0; 1; 2]; [0; 2; 3]; [0; 1; 3]; [1; 2; 3]].
(** src/Omega_h_swap3d_tables.hpp:70 *)
Definition meshes_4 : list Z := [0; 1; 2; 3].
(** src/Omega_h_swap3d_tables.hpp:72-74 *)
Definition triangles_5 : list (list Z) := [[0; 1; 2]; [0; 2; 3]; [0; 3; 4]; [0; 1; 4]; [1; 3; 4];
   [1; 2; 3]; [2; 3; 4]; [0; 2; 4]; [0; 1; 3]; [1; 2; 4]].
(** src/Omega_h_swap3d_tables.hpp:76-77 *)
Definition meshes_5 : list Z := [0; 1; 2; 3; 4; 5; 0; 6; 7; 2; 5; 8; 3; 6; 9].
(** src/Omega_h_swap3d_tables.hpp:79-82 *)
Definition triangles_6 : list (list Z) := [[0; 1; 2]; [0; 2; 3]; [0; 3; 4]; [0; 4; 5]; [0; 2; 5];
   [2; 4; 5]; [2; 3; 4]; [0; 3; 5]; [3; 4; 5]; [0; 2; 4]; [2; 3; 5]; [1; 2; 3]; [0; 1; 3]; [0; 1;
   5]; [1; 4; 5]; [1; 3; 4]; [0; 1; 4]; [1; 3; 5]; [1; 2; 4]; [1; 2; 5]].
(** src/Omega_h_swap3d_tables.hpp:84-87 *)
Definition meshes_6 : list Z := [0; 1; 2; 3; 0; 4; 5; 6; 0; 1; 7; 8; 0; 3; 6; 9; 0; 4; 8; 10; 2; 3;
   11; 12; 11; 13; 14; 15; 7; 8; 11; 12; 3; 11; 15; 16; 8; 11; 13; 17; 6; 13; 14; 18; 3; 6; 16; 18;
   5; 6; 13; 19; 8; 10; 13; 19].
(** src/Omega_h_swap3d_tables.hpp:89-94 *)
Definition triangles_7 : list (list Z) := [[0; 1; 2]; [0; 2; 3]; [0; 3; 4]; [0; 4; 5]; [0; 5; 6];
   [0; 3; 6]; [3; 5; 6]; [3; 4; 5]; [0; 4; 6]; [4; 5; 6]; [0; 3; 5]; [3; 4; 6]; [0; 2; 4]; [2; 3;
   4]; [0; 2; 6]; [2; 5; 6]; [2; 4; 5]; [0; 2; 5]; [2; 4; 6]; [2; 3; 5]; [2; 3; 6]; [0; 1; 3]; [1;
   2; 3]; [0; 1; 4]; [1; 3; 4]; [0; 1; 6]; [1; 5; 6]; [1; 4; 5]; [0; 1; 5]; [1; 4; 6]; [1; 3; 5];
   [1; 3; 6]; [1; 2; 4]; [1; 2; 5]; [1; 2; 6]].
(** src/Omega_h_swap3d_tables.hpp:96-106 *)
Definition meshes_7 : list Z := [0; 1; 2; 3; 4; 0; 1; 5; 6; 7; 0; 1; 2; 8; 9; 0; 1; 4; 7; 10; 0; 1;
   5; 9; 11; 0; 3; 4; 12; 13; 0; 13; 14; 15; 16; 0; 8; 9; 12; 13; 0; 4; 13; 16; 17; 0; 9; 13; 14;
   18; 0; 7; 14; 15; 19; 0; 4; 7; 17; 19; 0; 6; 7; 14; 20; 0; 9; 11; 14; 20; 2; 3; 4; 21; 22; 5; 6;
   7; 21; 22; 2; 8; 9; 21; 22; 4; 7; 10; 21; 22; 5; 9; 11; 21; 22; 3; 4; 22; 23; 24; 22; 24; 25; 26;
   27; 8; 9; 22; 23; 24; 4; 22; 24; 27; 28; 9; 22; 24; 25; 29; 7; 22; 25; 26; 30; 4; 7; 22; 28; 30;
   6; 7; 22; 25; 31; 9; 11; 22; 25; 31; 3; 4; 13; 23; 32; 13; 25; 26; 27; 32; 8; 9; 13; 23; 32; 4;
   13; 27; 28; 32; 9; 13; 25; 29; 32; 13; 16; 25; 26; 33; 4; 13; 16; 28; 33; 13; 15; 16; 25; 34; 9;
   13; 18; 25; 34; 7; 19; 25; 26; 33; 4; 7; 19; 28; 33; 7; 15; 19; 25; 34; 6; 7; 20; 25; 34; 9; 11;
   20; 25; 34].
(** src/Omega_h_swap3d_tables.hpp:119 *)
Definition unique_edges_4 : list (list Z) := [[2; 0]; [1; 3]].
(** src/Omega_h_swap3d_tables.hpp:121-122 *)
Definition unique_edges_5 : list (list Z) := [[2; 0]; [3; 0]; [1; 4]; [1; 3]; [4; 2]; [0; 3]; [3;
   1]].
(** src/Omega_h_swap3d_tables.hpp:124-126 *)
Definition unique_edges_6 : list (list Z) := [[2; 0]; [3; 0]; [4; 0]; [2; 5]; [2; 4]; [3; 5]; [0;
   4]; [4; 2]; [5; 3]; [0; 3]; [3; 1]; [1; 5]; [1; 4]; [4; 1]; [5; 2]].
(** src/Omega_h_swap3d_tables.hpp:128-131 *)
Definition unique_edges_7 : list (list Z) := [[2; 0]; [3; 0]; [4; 0]; [5; 0]; [3; 6]; [3; 5]; [4;
   6]; [0; 5]; [5; 3]; [6; 4]; [0; 4]; [2; 4]; [4; 2]; [2; 6]; [2; 5]; [5; 2]; [6; 3]; [0; 3]; [1;
   3]; [3; 1]; [1; 4]; [4; 1]; [1; 6]; [1; 5]; [5; 1]; [6; 2]].
(** src/Omega_h_swap3d_tables.hpp:137-139 and 263-264 *)
Definition edges2unique_4 : list (list Z) := [[0]; [1]].
(** src/Omega_h_swap3d_tables.hpp:141-149 and 266-268 *)
Definition edges2unique_5 : list (list Z) := [[0; 1]; [2; 3]; [0; 4]; [5; 6]; [2; 4]].
(** src/Omega_h_swap3d_tables.hpp:151-177 and 270-274 *)
Definition edges2unique_6 : list (list Z) := [[0; 1; 2]; [0; 3; 4]; [0; 1; 5]; [0; 6; 7]; [0; 3; 8];
   [9; 2; 10]; [10; 11; 12]; [9; 5; 10]; [6; 10; 13]; [8; 10; 11]; [7; 11; 12]; [6; 7; 12]; [4; 14;
   11]; [8; 14; 11]].
(** src/Omega_h_swap3d_tables.hpp:179-261 and 276-287 *)
Definition edges2unique_7 : list (list Z) := [[0; 1; 2; 3]; [0; 1; 4; 5]; [0; 1; 2; 6]; [0; 1; 7;
   8]; [0; 1; 4; 9]; [0; 10; 3; 11]; [0; 12; 13; 14]; [0; 10; 6; 11]; [0; 7; 12; 15]; [0; 9; 12;
   13]; [0; 8; 13; 14]; [0; 7; 8; 14]; [0; 5; 16; 13]; [0; 9; 16; 13]; [17; 2; 3; 18]; [17; 4; 5;
   18]; [17; 2; 6; 18]; [7; 8; 17; 18]; [17; 4; 9; 18]; [10; 3; 19; 20]; [19; 21; 22; 23]; [10; 6;
   19; 20]; [7; 19; 21; 24]; [9; 19; 21; 22]; [8; 19; 22; 23]; [7; 8; 19; 23]; [5; 16; 19; 22]; [9;
   16; 19; 22]; [10; 3; 12; 20]; [12; 22; 23; 20]; [10; 6; 12; 20]; [7; 12; 20; 24]; [9; 12; 22;
   20]; [12; 15; 22; 23]; [7; 12; 15; 23]; [12; 14; 25; 22]; [9; 12; 25; 22]; [8; 15; 22; 23]; [7;
   8; 15; 23]; [8; 14; 25; 22]; [5; 16; 25; 22]; [9; 16; 25; 22]].
(** src/Omega_h_swap3d_tables.hpp:110-111 *)
Definition swap_triangles : list (list (list Z)) := [[]; []; []; triangles_3; triangles_4;
   triangles_5; triangles_6; triangles_7].
(** src/Omega_h_swap3d_tables.hpp:113-115 *)
Definition swap_meshes : list (list Z) := [[]; []; []; meshes_3; meshes_4; meshes_5; meshes_6;
   meshes_7].
(** src/Omega_h_swap3d_tables.hpp:134-135 *)
Definition unique_edges : list (list (list Z)) := [[]; []; []; []; unique_edges_4; unique_edges_5;
   unique_edges_6; unique_edges_7].
(** src/Omega_h_swap3d_tables.hpp:290-291 *)
Definition edges2unique : list (list (list Z)) := [[]; []; []; []; edges2unique_4; edges2unique_5;
   edges2unique_6; edges2unique_7].
