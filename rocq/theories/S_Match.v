(** Specification vocabulary for matching sides with entities. *)
From Verif Require Import Prelude M_Align M_Adj S_Align S_Adj.
Local Open Scope Z_scope.

(** row [b] of [bv2v] is a reading of the polygon [row] *)
Definition matches (deg : Z) (bv2v row : list Z) (b : Z) : Prop := exists rb, row_is deg bv2v b rb /\ same_polygon rb row.

(** no two entities are the same polygon *)
Definition polygons_distinct (deg : Z) (bv2v : list Z) : Prop :=
  forall b b' r r', row_is deg bv2v b r -> row_is deg bv2v b' r' -> same_polygon r r' -> b = b'.

(** [v2b] lists for each vertex the entities that contain it, in order, with its positions in them *)
Definition is_up (deg nv : Z) (bv2v : list Z) (v2b : adj) : Prop :=
  wf_adj v2b /\ zlen (adj_a2ab v2b) = nv + 1 /\
  forall v, 0 <= v < nv ->
    adj_targets v2b v = Ok (map (fun u => u / deg) (uses_of bv2v v)) /\
    adj_target_codes v2b v = Ok (map (use_code deg None) (uses_of bv2v v)).

(** a code with a rotation of a polygon of [deg] corners, and position 0 *)
Definition good_code (deg code : Z) : Prop := exists fl r, code = make_code fl r 0 /\ 0 <= r < deg.
