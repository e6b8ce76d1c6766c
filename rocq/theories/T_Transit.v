(** C21: transit. *)
From Verif Require Import Prelude M_Template S_Template M_Align S_Align M_Unique S_Unique P_Unique M_Adj M_Match P_Match M_Transit S_Transit P_Transit.
Local Open Scope Z_scope.

(** Going from elements to edges to vertices gives exactly the vertices of the elements, in their order. *)
Theorem transit_to_vertices : forall f high hv2v ev2v he2e codes nh, 2 <= high <= 3 -> zlen hv2v = nh * element_degree f high 0 -> rows_distinct (element_degree f high 0) hv2v ->
  zlen he2e = nh * element_degree f high 1 -> reflects f high 1 hv2v ev2v he2e codes ->
  transit (mk_adj [] he2e (Some codes)) (mk_adj [] ev2v None) f high 0 = Ok (hv2v, None).
Proof. exact transit_verts_spec. Qed.
(** Going from regions to faces to edges gives at each edge of each region the edge with these
    vertices, and the code that aligns it with the region's own direction of the edge. *)
Theorem transit_to_edges : forall f hv2v fv2v ev2v hf2f hf_codes fe2e fe_codes nh, zlen hv2v = nh * element_degree f 3 0 -> rows_distinct (element_degree f 3 0) hv2v ->
  zlen hf2f = nh * element_degree f 3 2 -> reflects f 3 2 hv2v fv2v hf2f hf_codes -> reflects f 2 1 fv2v ev2v fe2e fe_codes ->
  exists he2e codes, transit (mk_adj [] hf2f (Some hf_codes)) (mk_adj [] fe2e (Some fe_codes)) f 3 1 = Ok (he2e, Some codes) /\
  zlen he2e = nh * element_degree f 3 1 /\ zlen codes = nh * element_degree f 3 1 /\ reflects f 3 1 hv2v ev2v he2e codes.
Proof. exact transit_edges_spec. Qed.
Print Assumptions transit_to_vertices.
Print Assumptions transit_to_edges.

(** Two tetrahedra glued along a face.  The adjacencies are those made by find_unique and reflect_down
    (so the hypotheses hold, by find_unique_then_reflect_down), and transit gives the same result as
    matching the edges directly. *)
Definition two_tets := [0; 1; 2; 3; 4; 2; 1; 3].
Definition two_tets_faces := [0; 2; 1; 0; 1; 3; 2; 0; 3; 2; 1; 3; 4; 1; 2; 1; 4; 3; 4; 2; 3].
Definition two_tets_edges := [0; 1; 2; 0; 0; 3; 1; 2; 3; 1; 1; 4; 2; 3; 4; 2; 3; 4].
Definition serial_schedule (n k : nat) : list nat := flat_map (fun i => repeat i k) (seq 0 n).
Definition reflect_serially (hv lv : list Z) (h l : Z) :=
  reflect_down hv lv OMEGA_H_SIMPLEX 5 h l (fun _ => 7) (serial_schedule (length lv) 3) (serial_schedule (length lv) 3).
Example two_tets_found : find_unique two_tets OMEGA_H_SIMPLEX 3 2 = Ok two_tets_faces /\ find_unique two_tets_faces OMEGA_H_SIMPLEX 2 1 = Ok two_tets_edges.
Proof. split; vm_compute; reflexivity. Qed.
Example two_tets_transit : exists hf hc fe fc he ec,
  reflect_serially two_tets two_tets_faces 3 2 = Ok (Some (hf, hc)) /\ reflect_serially two_tets_faces two_tets_edges 2 1 = Ok (Some (fe, fc)) /\
  reflect_serially two_tets two_tets_edges 3 1 = Ok (Some (he, ec)) /\
  transit (mk_adj [] hf (Some hc)) (mk_adj [] fe (Some fc)) OMEGA_H_SIMPLEX 3 1 = Ok (he, Some ec) /\
  transit (mk_adj [] he (Some ec)) (mk_adj [] two_tets_edges None) OMEGA_H_SIMPLEX 3 0 = Ok (two_tets, None).
Proof. do 6 eexists. split; [vm_compute; reflexivity|]. split; [vm_compute; reflexivity|]. split; [vm_compute; reflexivity|]. split; vm_compute; reflexivity. Qed.
