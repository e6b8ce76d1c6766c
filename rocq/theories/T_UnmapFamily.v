(** C88: Parents and leaf flags when entities are taken away or renumbered. *)
From Verif Require Import Prelude M_Array M_Par M_Map M_Adj M_Parents S_Parents M_UnmapFamily S_UnmapFamily P_UnmapFamily X_UnmapFamily.
Local Open Scope Z_scope.

Theorem parents_and_leaves_follow : forall m leaves kept, keeps m leaves kept -> forall c, with_parents m ->
  exists o, unmap_family c m leaves kept = Ok o /\ forall new tags, o = Some (new, tags) ->
  f_dim new = f_dim m /\ (forall d, f_nents new d = zlen (kept d)) /\ f_parents new 0 = None /\
  forall d, 1 <= d <= f_dim m -> (exists p, f_parents new d = Some p /\ parent_right m kept d p) /\ (exists l, zget tags d = Ok (Some l) /\ leaf_right m leaves kept d l).
Proof. exact unmap_family_w. Qed.

(** Vertices lose their parents even if these are kept. *)
Theorem vertices_keep_their_parents_refuted : exists c m leaves kept new tags e' e q code, keeps m leaves kept /\ with_parents m /\ unmap_family c m leaves kept = Ok (Some (new, tags)) /\
  zget (kept 0) e' = Ok e /\ child_of m 0 e 1 q code /\ In q (kept 1) /\ zget (fst (parents_in new 0)) e' = Ok (-1).
Proof. exact vertices_lose_parents_w. Qed.

Print Assumptions parents_and_leaves_follow.
Print Assumptions vertices_keep_their_parents_refuted.

Example line_is_one : keeps line line_leaves line_kept /\ with_parents line.
Proof. exact (conj line_keeps line_with_parents). Qed.
Example line_derefined : line_result = Some ([None; Some ([-1; -1; 1; 1], [0; 0; 1; 5])], [None; Some [1; 0; 1; 1]]).
Proof. vm_compute. reflexivity. Qed.
