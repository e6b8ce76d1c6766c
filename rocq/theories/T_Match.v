(** C20: find_matches and reflect_down. *)
From Verif Require Import Prelude M_Par M_Template S_Template M_Align S_Align M_Unique S_Unique P_Unique M_Adj S_Adj M_Match S_Match P_Match.
Local Open Scope Z_scope.

(** If every row of [av2v] is a reading of exactly one entity, find_matches returns these entities and
    codes that align their vertices onto the rows; if some row has no entity, or more than one, it aborts. *)
Theorem find_matches_finds_entity : forall f dim av2v bv2v v2b na nb nv, 1 <= dim <= 2 -> let deg := element_degree f dim 0 in
  zlen av2v = na * deg -> zlen bv2v = nb * deg -> rows_distinct deg bv2v -> is_up deg nv bv2v v2b -> (forall v, In v av2v -> 0 <= v < nv) ->
  ((forall a ra, row_is deg av2v a ra -> exists b, matches deg bv2v ra b /\ forall b', matches deg bv2v ra b' -> b' = b) ->
    exists a2b codes, find_matches f dim av2v bv2v v2b = Ok (a2b, codes) /\ zlen a2b = na /\ zlen codes = na /\
    forall a ra, row_is deg av2v a ra -> exists b code rb, zget a2b a = Ok b /\ zget codes a = Ok code /\ good_code deg code /\ row_is deg bv2v b rb /\ align_adj deg code rb = Ok ra) /\
  (forall a ra, row_is deg av2v a ra -> (forall b, ~ matches deg bv2v ra b) \/ (exists b b', matches deg bv2v ra b /\ matches deg bv2v ra b' /\ b <> b') ->
    find_matches f dim av2v bv2v v2b = Abort).
Proof. exact find_matches_total. Qed.
(** With duplicates allowed the first matching entity is taken. *)
Theorem find_matches_takes_first : forall deg nv na nb av2v bv2v a2fv v2b, 2 <= deg <= 4 -> zlen av2v = na * deg -> zlen bv2v = nb * deg -> rows_distinct deg bv2v -> is_up deg nv bv2v v2b ->
  zlen a2fv = na -> (forall a, 0 <= a < na -> zget a2fv a = zget av2v (a * deg)) -> (forall v, In v av2v -> 0 <= v < nv) ->
  (forall a ra, row_is deg av2v a ra -> exists b, matches deg bv2v ra b /\ forall b', matches deg bv2v ra b' -> b <= b') ->
  exists a2b codes, find_matches_ex deg a2fv av2v bv2v v2b true = Ok (a2b, codes) /\ zlen a2b = na /\ zlen codes = na /\
  forall a ra, row_is deg av2v a ra -> exists b code rb, zget a2b a = Ok b /\ zget codes a = Ok code /\ good_code deg code /\
    row_is deg bv2v b rb /\ align_adj deg code rb = Ok ra /\ forall b', matches deg bv2v ra b' -> b <= b'.
Proof. exact find_matches_first. Qed.
(** reflect_down, under every interleaving of its atomic kernels: the entity at side [u] of element
    [h] has the side's vertices, and the code aligns them onto the side. *)
Theorem reflect_down_finds_sides : forall hv2v lv2v f high low nh nl nv m0 s1 s2, 1 <= low < high -> high <= 3 -> 0 <= nv ->
  zlen hv2v = nh * element_degree f high 0 -> zlen lv2v = nl * element_degree f low 0 ->
  rows_distinct (element_degree f low 0) lv2v -> polygons_distinct (element_degree f low 0) lv2v ->
  (forall v, In v hv2v \/ In v lv2v -> 0 <= v < nv) ->
  (forall h u row, is_side f high low hv2v h u row -> exists l, matches (element_degree f low 0) lv2v row l) ->
  exists o, reflect_down hv2v lv2v f nv high low m0 s1 s2 = Ok o /\
  forall hl2l codes, o = Some (hl2l, codes) ->
  zlen hl2l = nh * element_degree f high low /\ zlen codes = nh * element_degree f high low /\
  forall h u row, is_side f high low hv2v h u row -> exists l code lrow,
    zget hl2l (h * element_degree f high low + u) = Ok l /\ zget codes (h * element_degree f high low + u) = Ok code /\
    row_is (element_degree f low 0) lv2v l lrow /\ align_adj (element_degree f low 0) code lrow = Ok row /\ code_rotation code < element_degree f low 0.
Proof. exact reflect_down_spec. Qed.
(** A side without an entity, or with two, makes it abort. *)
Theorem reflect_down_refuses : forall hv2v lv2v f high low nh nl nv m0 s1 s2 h u row, 1 <= low < high -> high <= 3 -> 0 <= nv ->
  zlen hv2v = nh * element_degree f high 0 -> zlen lv2v = nl * element_degree f low 0 ->
  rows_distinct (element_degree f low 0) lv2v -> (forall v, In v hv2v \/ In v lv2v -> 0 <= v < nv) ->
  is_side f high low hv2v h u row ->
  (forall l, ~ matches (element_degree f low 0) lv2v row l) \/ (exists l l', matches (element_degree f low 0) lv2v row l /\ matches (element_degree f low 0) lv2v row l' /\ l <> l') ->
  reflect_down hv2v lv2v f nv high low m0 s1 s2 = Ok None \/ reflect_down hv2v lv2v f nv high low m0 s1 s2 = Abort.
Proof. exact reflect_down_abort. Qed.
(** The entities made by find_unique always satisfy the hypotheses. *)
Theorem find_unique_then_reflect_down : forall hv2v lv2v f high low nh nv m0 s1 s2, 1 <= low < high -> high <= 3 -> 0 <= nv ->
  zlen hv2v = nh * element_degree f high 0 -> rows_distinct (element_degree f high 0) hv2v -> (forall v, In v hv2v -> 0 <= v < nv) ->
  find_unique hv2v f high low = Ok lv2v ->
  exists o, reflect_down hv2v lv2v f nv high low m0 s1 s2 = Ok o /\
  forall hl2l codes, o = Some (hl2l, codes) ->
  zlen hl2l = nh * element_degree f high low /\ zlen codes = nh * element_degree f high low /\
  forall h u row, is_side f high low hv2v h u row -> exists l code lrow,
    zget hl2l (h * element_degree f high low + u) = Ok l /\ zget codes (h * element_degree f high low + u) = Ok code /\
    row_is (element_degree f low 0) lv2v l lrow /\ align_adj (element_degree f low 0) code lrow = Ok row /\ code_rotation code < element_degree f low 0.
Proof. exact unique_reflect. Qed.
Print Assumptions find_matches_finds_entity.
Print Assumptions find_matches_takes_first.
Print Assumptions reflect_down_finds_sides.
Print Assumptions reflect_down_refuses.
Print Assumptions find_unique_then_reflect_down.

(** Two triangles with their five edges: the hypotheses hold (by find_unique), and the result. *)
Example two_tris_edges : find_unique [0; 1; 2; 2; 1; 3] OMEGA_H_SIMPLEX 2 1 = Ok [0; 1; 2; 0; 2; 1; 1; 3; 3; 2].
Proof. vm_compute. reflexivity. Qed.
Definition serial_schedule (n k : nat) : list nat := flat_map (fun i => repeat i k) (seq 0 n).
Example two_tris_reflect : reflect_down [0; 1; 2; 2; 1; 3] [0; 1; 2; 0; 2; 1; 1; 3; 3; 2] OMEGA_H_SIMPLEX 4 2 1 (fun _ => 7) (serial_schedule 10 3) (serial_schedule 10 3)
  = Ok (Some ([0; 2; 1; 2; 3; 4], [0; 2; 0; 0; 0; 0])).
Proof. vm_compute. reflexivity. Qed.
(** an edge is missing *)
Example two_tris_missing : reflect_down [0; 1; 2; 2; 1; 3] [0; 1; 2; 0; 2; 1; 1; 3] OMEGA_H_SIMPLEX 4 2 1 (fun _ => 7) (serial_schedule 8 3) (serial_schedule 8 3) = Abort.
Proof. vm_compute. reflexivity. Qed.
