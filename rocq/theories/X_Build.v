(** Example data for C65: the two tetrahedra of X_MeshAdj, given by their vertices only, and a square of two triangles. *)
From Verif Require Import Prelude M_Par M_Template S_Template M_Align S_Align M_Unique S_Unique P_Unique M_Adj M_ArrayOps S_ArrayOps P_ArrayOps M_MeshAdj S_MeshAdj X_MeshAdj M_Build S_Build.
Local Open Scope Z_scope.

Definition two_tets : list Z := [0; 1; 2; 3; 4; 2; 1; 3].
Lemma two_tets_proper : proper_elements OMEGA_H_SIMPLEX 3 two_tets 5.
Proof.
  split; [lia|]. split; [lia|]. split; [exists 2; vm_compute; reflexivity|]. split; [apply (rows_distinct_check _ _ 2); vm_compute; reflexivity|]. intros v Hv. cbn in Hv. intuition lia.
Qed.
(** a vertex that does not exist *)
Definition stray : list Z := [0; 1; 2; 2; 1; 9].
