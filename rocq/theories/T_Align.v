(** C17: alignment codes. *)
From Verif Require Import Prelude M_Align S_Align P_Align.
Local Open Scope Z_scope.

(** A code remembers its three parts (the position is below 16) ... *)
Theorem code_round_trip : forall b r w, 0 <= r < 4 -> 0 <= w < 16 ->
  code_is_flipped (make_code b r w) = b /\ code_rotation (make_code b r w) = r /\ code_which_down (make_code b r w) = w /\ -128 <= make_code b r w <= 127.
Proof. exact code_fields. Qed.
(** ... but not larger positions: the code has 8 bits. *)
Theorem code_round_trip_refuted : code_which_down (make_code false 0 16) = -16.
Proof. exact code_wraps. Qed.
(** Aligning a row of 2, 3 or 4 vertices moves vertex [j] to position [align_vert_index]. *)
Theorem align_adj_moves_vertices : forall (A : Type) n code (l : list A), 2 <= n <= 4 -> zlen l = n ->
  exists l', align_adj n code l = Ok l' /\ zlen l' = n /\ forall j, 0 <= j < n -> zget l' (align_vert_index n j code) = zget l j.
Proof. exact @align_spec. Qed.
(** It moves edge [j] of a polygon (corners j and j+1) to position [align_edge_index]. *)
Theorem align_adj_moves_edges : forall (A : Type) n code (l l' : list A) j v w, 3 <= n <= 4 -> zlen l = n -> 0 <= j < n ->
  align_adj n code l = Ok l' -> edge_of l j v w -> edge_of l' (align_edge_index n j code) v w.
Proof. exact @edge_spec. Qed.
(** The inverse code undoes a code. *)
Theorem invert_alignment_undoes : forall (A : Type) n code (l l' : list A), 2 <= n <= 4 -> zlen l = n -> code_rotation code < n ->
  align_adj n code l = Ok l' -> align_adj n (invert_alignment n code) l' = Ok l.
Proof. exact @inverse_spec. Qed.
(** The compound code does one code and then the other. *)
Theorem compound_alignments_composes : forall (A : Type) n c1 c2 (l l1 l2 : list A), 2 <= n <= 4 -> zlen l = n -> code_rotation c1 < n -> code_rotation c2 < n ->
  align_adj n c1 l = Ok l1 -> align_adj n c2 l1 = Ok l2 -> align_adj n (compound_alignments_n n c1 c2) l = Ok l2.
Proof. exact @compound_spec. Qed.
(** Codes act on a polygon as its symmetries: they give another reading of the same polygon, every
    reading is reached, and by one code only. *)
Theorem align_adj_same_polygon : forall (A : Type) n code (l l' : list A), 2 <= n <= 4 -> zlen l = n -> align_adj n code l = Ok l' -> same_polygon l l'.
Proof. exact @polygon_spec. Qed.
Theorem align_adj_reaches_polygon : forall (A : Type) n (l l' : list A), 2 <= n <= 4 -> zlen l = n -> same_polygon l l' ->
  exists b r, 0 <= r < n /\ align_adj n (make_code b r 0) l = Ok l'.
Proof. exact @polygon_reached. Qed.
Theorem align_adj_faithful : forall (A : Type) n c1 c2 (l l' : list A), 3 <= n <= 4 -> zlen l = n -> NoDup l -> code_rotation c1 < n -> code_rotation c2 < n ->
  align_adj n c1 l = Ok l' -> align_adj n c2 l = Ok l' -> code_is_flipped c1 = code_is_flipped c2 /\ code_rotation c1 = code_rotation c2.
Proof. exact @faithful. Qed.
(** align_ev2v aligns every row with its own code. *)
Theorem align_ev2v_aligns_rows : forall (A : Type) deg (ev2v : list A) codes, 2 <= deg <= 4 -> zlen ev2v = zlen codes * deg ->
  exists out, align_ev2v deg ev2v codes = Ok out /\ zlen out = zlen ev2v /\
  forall e code row, zget codes e = Ok code -> row_is deg ev2v e row -> exists row', align_adj deg code row = Ok row' /\ row_is deg out e row'.
Proof. exact @align_ev2v_spec. Qed.
Print Assumptions code_round_trip.
Print Assumptions code_round_trip_refuted.
Print Assumptions align_adj_moves_vertices.
Print Assumptions align_adj_moves_edges.
Print Assumptions invert_alignment_undoes.
Print Assumptions compound_alignments_composes.
Print Assumptions align_adj_same_polygon.
Print Assumptions align_adj_reaches_polygon.
Print Assumptions align_adj_faithful.
Print Assumptions align_ev2v_aligns_rows.

Example align_quad : align_adj 4 (make_code true 1 0) [10; 11; 12; 13] = Ok [13; 12; 11; 10]. Proof. reflexivity. Qed.
Example align_two_tris : align_ev2v 3 [10; 11; 12; 20; 21; 22] [make_code false 1 2; make_code true 2 0] = Ok [12; 10; 11; 21; 20; 22]. Proof. reflexivity. Qed.
Example compound_dispatch : compound_alignments 3 (make_code true 1 0) (make_code false 1 0) = Ok (make_code true 0 0) /\ compound_alignments 4 0 0 = Abort.
Proof. split; reflexivity. Qed.
