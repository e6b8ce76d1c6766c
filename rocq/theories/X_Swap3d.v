(** A concrete mesh: five tets around the edge (5,6), in a scrambled order and with scrambled vertices. *)
From Verif Require Import Prelude M_SwapTables M_Swap3d M_Align M_Template S_Swap3d S_SwapMesh S_SwapChoice.
From Coq Require Import Permutation.
Local Open Scope Z_scope.

Definition ex_tets : list (list Z) := [[5; 6; 2; 3]; [0; 1; 5; 6]; [6; 5; 0; 4]; [5; 1; 2; 6]; [4; 3; 6; 5]].
Definition ex_tv2v : list Z := concat ex_tets.
Definition ex_e2et : list Z := [0; 5].
Definition ex_et2t : list Z := [0; 1; 2; 3; 4].
Definition ex_codes : list Z := [make_code false 0 0; make_code false 0 5; make_code false 1 0; make_code false 0 3; make_code false 1 5].
Definition ex_ev2v : list Z := [5; 6].

Lemma ex_cavity : cavity ex_e2et ex_et2t ex_codes ex_ev2v ex_tv2v 0 5 6 [0; 1; 2; 3; 4] ex_tets.
Proof.
  exists 0, 5. do 4 (split; [reflexivity|]). split; [vm_compute; reflexivity|]. split; [|split].
  - intros i t H. pose proof (zget_bounds _ _ _ H) as B. change (zlen ex_tets) with 5 in B.
    assert (i = 0 \/ i = 1 \/ i = 2 \/ i = 3 \/ i = 4) as [->|[->|[->|[->| ->]]]] by lia; vm_compute in H; injection H as <-; eexists; (split; [vm_compute; reflexivity|]); vm_compute; repeat split; discriminate.
  - split; [repeat constructor; cbn [In]; lia|]. exists [(2, 3); (0, 1); (4, 0); (1, 2); (3, 4)]. split.
    + cbn. apply (Permutation_trans (l' := [(0, 1); (2, 3); (4, 0); (1, 2); (3, 4)])); [apply perm_swap|]. apply perm_skip.
      apply (Permutation_trans (l' := [(2, 3); (1, 2); (4, 0); (3, 4)])); [apply perm_skip, perm_swap|]. apply (Permutation_trans (l' := [(1, 2); (2, 3); (4, 0); (3, 4)])); [apply perm_swap|]. do 2 apply perm_skip. apply perm_swap.
    + repeat constructor; cbn; tauto.
  - vm_compute. split; discriminate.
Qed.
