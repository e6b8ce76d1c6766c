(** Example data for C88: two edges, 01 and 12, both refined.  Vertices 3 and 4 are their middles, edges 2 and 3 are the halves of the first and
    4 and 5 of the second.  The halves of the first edge and its middle are taken away again. *)
From Coq Require Import Lia.
From Verif Require Import Prelude M_Array M_Par M_Map M_Adj M_Parents S_Parents M_UnmapFamily S_UnmapFamily P_UnmapFamily.
Local Open Scope Z_scope.

Definition line : fmesh := mk_fmesh 1 (fun d => if d =? 0 then 5 else 6)
  (fun d => if d =? 0 then Some ([-1; -1; -1; 0; 1], [0; 0; 0; 1; 1]) else if d =? 1 then Some ([-1; -1; 0; 0; 1; 1], [0; 0; 1; 5; 1; 5]) else None) (fun _ _ => None).
Definition line_leaves (d : Z) : option (list Z) := if d =? 1 then Some [0; 0; 1; 1; 1; 1] else None.
Definition line_kept (d : Z) : list Z := if d =? 0 then [0; 1; 2; 4] else [0; 1; 4; 5].
Definition turns (_ : Z) : mem Z * list nat * list nat := (fun _ => 0, flat_map (fun i => repeat i 3) (seq 0 4), flat_map (fun i => repeat i 3) (seq 0 4)).

Lemma line_keeps : keeps line line_leaves line_kept.
Proof.
  assert (D : forall d, 0 <= d <= f_dim line -> d = 0 \/ d = 1) by (cbn; lia).
  constructor.
  - cbn. lia.
  - intros d H. destruct (D d H) as [->| ->]; cbn; lia.
  - intros d H. destruct (D d H) as [->| ->]; (split; [repeat constructor; cbn; lia|cbn; lia]).
  - intros d H. destruct (D d H) as [->| ->]; split; reflexivity.
  - intros d e q c H A B Q. pose proof (zget_bounds _ _ _ A) as Be. destruct (D d H) as [->| ->]; cbn in A, B, Be; unfold zlen in Be; cbn in Be.
    + assert (C : e = 0 \/ e = 1 \/ e = 2 \/ e = 3 \/ e = 4) by lia. destruct C as [->|[->|[->|[->| ->]]]]; vm_compute in A, B; inversion A; inversion B; subst; try lia; cbn; lia.
    + assert (C : e = 0 \/ e = 1 \/ e = 2 \/ e = 3 \/ e = 4 \/ e = 5) by lia. destruct C as [->|[->|[->|[->|[->| ->]]]]]; vm_compute in A, B; inversion A; inversion B; subst; try lia; cbn; lia.
  - intros d l H E. destruct (D d H) as [->| ->]; cbn in E; [discriminate|]. injection E as <-. reflexivity.
Qed.
Lemma line_with_parents : with_parents line.
Proof. exists 1. split; [cbn; lia|discriminate]. Qed.
Definition line_result : option (list (option parents) * list (option (list Z))) := match unmap_family turns line line_leaves line_kept with
  | Ok (Some (new, tags)) => Some (map (f_parents new) (zrange 2), tags) | _ => None end.

Lemma vertices_lose_parents_w : exists c m leaves kept new tags e' e q code, keeps m leaves kept /\ with_parents m /\ unmap_family c m leaves kept = Ok (Some (new, tags)) /\
  zget (kept 0) e' = Ok e /\ child_of m 0 e 1 q code /\ In q (kept 1) /\ zget (fst (parents_in new 0)) e' = Ok (-1).
Proof.
  exists turns, line, line_leaves, line_kept. destruct (unmap_family turns line line_leaves line_kept) as [[(new & tags)|]| |] eqn:E; [|vm_compute in E; discriminate..].
  exists new, tags, 3, 4, 1, 1. split; [exact line_keeps|]. split; [exact line_with_parents|]. split; [reflexivity|]. split; [reflexivity|]. split; [repeat split; lia|]. split; [right; left; reflexivity|].
  destruct (unmap_family_w line line_leaves line_kept line_keeps turns line_with_parents) as (o & E' & H). rewrite E in E'. injection E' as <-. destruct (H new tags eq_refl) as (_ & N & P0 & _). unfold parents_in. rewrite P0, N. reflexivity.
Qed.
