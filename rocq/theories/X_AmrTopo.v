(** Example data for C85: two squares of which the left one is refined now and the right one was before.  Vertices 0 to 5 are the corners
    (0,0) (1,0) (2,0) (0,1) (1,1) (2,1), edges 01 12 03 14 25 34 45, squares 0143 and 1254.  Of what the right square was refined to only the
    middle of edge 14 is there, vertex 6; the other children do not matter here. *)
From Coq Require Import Lia.
From Verif Require Import Prelude M_Array M_ArrayOps S_ArrayOps M_Map M_Graph S_Graph P_Graph M_Template M_AmrTopo S_AmrTopo.
Local Open Scope Z_scope.

Definition xmods (d : Z) : list Z := match d with 0 => [0; 1; 3; 4] | 1 => [0; 2; 5] | 2 => [0] | _ => [] end.
Definition xmds2mods (d : Z) : list Z := match d with 0 => [0; 1; -1; 2; 3; -1; -1] | 1 => [0; -1; 1; -1; -1; 2; -1] | 2 => [0; -1] | _ => [] end.
Definition xmids (d : Z) : list Z := match d with 0 => [0; 1; 3; 4] | 1 => [7; 8; 9] | 2 => [10] | _ => [] end.
Definition xlows (d ld : Z) : list Z := match d, ld with
  | 2, 0 => [0; 1; 4; 3; 1; 2; 5; 4] | 2, 1 => [0; 3; 5; 2; 1; 4; 6; 3] | 2, 2 => [0; 1]
  | 1, 0 => [0; 1; 1; 2; 0; 3; 1; 4; 2; 5; 3; 4; 4; 5] | 1, 1 => [0; 1; 2; 3; 4; 5; 6] | 0, 0 => [0; 1; 2; 3; 4; 5; 6] | _, _ => [] end.
Definition xkids (middle : list Z) (d : Z) : graph := match d with 1 => of_lists [[]; []; []; middle; []; []; []] | _ => of_lists [[]; []] end.
Definition xrefining (middle : list Z) : refining := {|
  r_dim := 2; r_mods2mds := xmods; r_mds2mods := xmds2mods; r_mods2midverts := xmids; r_lows := xlows; r_child_verts := xkids middle;
  r_old_verts2new_verts := [0; 1; 2; 3; 4; 5; 6] |}.

Lemma dim3 d : 0 <= d <= 2 -> d = 0 \/ d = 1 \/ d = 2.
Proof. lia. Qed.
Definition inv_fits (d : Z) : bool := forallb (fun e => match zget (xmds2mods d) e with
  | Ok m => if m =? -1 then negb (existsb (Z.eqb e) (xmods d)) else match zget (xmods d) m with Ok x => x =? e | _ => false end | _ => false end) (zrange (zlen (xmds2mods d))).
Lemma inv_fits_all d : 0 <= d <= 2 -> inv_fits d = true.
Proof. intros H. destruct (dim3 d H) as [->|[->| ->]]; vm_compute; reflexivity. Qed.
Lemma xrefining_ok middle : (forall v, In v middle -> 0 <= v < 7) -> refining_ok (xrefining middle).
Proof.
  intros HM. constructor; cbn [r_dim r_mods2mds r_mds2mods r_mods2midverts r_lows r_child_verts r_old_verts2new_verts xrefining].
  - lia.
  - intros d H. destruct (dim3 d H) as [->|[->| ->]]; cbn; repeat constructor; cbn; lia.
  - intros d md H. destruct (dim3 d H) as [->|[->| ->]]; cbn; unfold zlen; cbn; lia.
  - intros d e m H E. pose proof (inv_fits_all d H) as F. unfold inv_fits in F. rewrite forallb_forall in F. specialize (F e). rewrite in_zrange in F. specialize (F (zget_bounds _ _ _ E)). rewrite E in F. destruct (Z.eqb_spec m (-1)) as [->|N].
    + left. split; [reflexivity|]. intros I. rewrite Bool.negb_true_iff in F. assert (T : existsb (Z.eqb e) (xmods d) = true) by (apply existsb_exists; exists e; split; [exact I|apply Z.eqb_refl]). congruence.
    + right. split; [exact N|]. destruct (zget (xmods d) m) as [x| |]; [|discriminate..]. apply Z.eqb_eq in F. congruence.
  - intros d H. destruct (dim3 d H) as [->|[->| ->]]; reflexivity.
  - intros d ld H H2. destruct (dim3 d ltac:(lia)) as [->|[->| ->]], (dim3 ld ltac:(lia)) as [->|[->| ->]]; (reflexivity || lia).
  - intros d ld low H H2. destruct (dim3 d ltac:(lia)) as [->|[->| ->]], (dim3 ld ltac:(lia)) as [->|[->| ->]]; cbn; unfold zlen; cbn; lia.
  - intros d H. assert (C : d = 1 \/ d = 2) by lia. destruct C as [->| ->]; (split; [apply of_lists_wf|]); split; try reflexivity.
    + intros v Hv. cbn in Hv. rewrite app_nil_r in Hv. specialize (HM v Hv). change (zlen [0; 1; 2; 3; 4; 5; 6]) with 7. exact HM.
    + intros v [].
  - intros d md i v H Hm Hi E. assert (C : d = 1 \/ d = 2) by lia. destruct C as [->| ->]; cbn [xmods] in *.
    + change (hypercube_degree 1 0) with 2 in *. assert (I : i = 0 \/ i = 1) by lia. cbn in Hm. destruct Hm as [<-|[<-|[<-|[]]]], I as [->| ->]; vm_compute in E; injection E as <-; cbn; lia.
    + change (hypercube_degree 2 0) with 4 in *. assert (I : i = 0 \/ i = 1 \/ i = 2 \/ i = 3) by lia. cbn in Hm. destruct Hm as [<-|[]], I as [->|[->|[->| ->]]]; vm_compute in E; injection E as <-; cbn; lia.
Qed.
Lemma xhanging_ok : refining_ok (xrefining [6]).
Proof. apply xrefining_ok. intros v [<-|[]]. lia. Qed.
Lemma xmissing_ok : refining_ok (xrefining []).
Proof. apply xrefining_ok. intros v []. Qed.
Definition xrefine (d : Z) : list Z := match d with 1 => [1; 0; 1; 0; 0; 1; 0] | _ => [1; 0] end.
