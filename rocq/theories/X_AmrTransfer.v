(** Example data for C86: two squares of which the left one is refined.  Vertices (0,0) (1,0) (2,0) (0,1) (1,1) (2,1), edges 01 12 03 14 25 34 45,
    squares 0143 and 1254; the refined edges are 01, 03, 14 and 34.  Edge 4 has edge 6 as parent, nothing else has one. *)
From Coq Require Import Lia.
From Verif Require Import Prelude M_Array M_Parents M_Template M_AmrTopo S_AmrTopo M_AmrTransfer S_AmrTransfer.
Local Open Scope Z_scope.

Definition tmods (d : Z) : list Z := match d with 1 => [0; 2; 3; 5] | 2 => [0] | _ => [] end.
Definition tprods (d : Z) : list Z := match d with 0 => [6; 7; 8; 9; 10] | 1 => [1; 2; 5; 6; 8; 9; 12; 13; 15; 16; 17; 18] | 2 => [1; 2; 3; 4] | _ => [] end.
Definition tsame2old (d : Z) : list Z := match d with 0 => [0; 1; 2; 3; 4; 5] | 1 => [0; 1; 2; 3; 4; 5; 6] | 2 => [0; 1] | _ => [] end.
Definition tsame2new (d : Z) : list Z := match d with 0 => [0; 1; 2; 3; 4; 5] | 1 => [0; 3; 4; 7; 10; 11; 14] | 2 => [0; 5] | _ => [] end.
Definition told (d : Z) : Z := match d with 0 => 6 | 1 => 7 | 2 => 2 | _ => 0 end.
Definition tnew (d : Z) : Z := match d with 0 => 11 | 1 => 19 | 2 => 6 | _ => 0 end.
Definition tlevels (d : Z) : list Z := match d with 0 => [1; 0; 0; 1; 0; 0] | 1 => [0; 0; 0; 1; 1; 0; 0] | 2 => [0; 1] | _ => [] end.
Definition tparents (d : Z) : parents := match d with
  | 0 => ([-1; -1; -1; -1; -1; -1], [0; 0; 0; 0; 0; 0]) | 1 => ([-1; -1; -1; -1; 6; -1; -1], [0; 0; 0; 0; 5; 0; 0]) | 2 => ([-1; -1], [0; 0]) | _ => ([], []) end.
Definition tdata (d : Z) : list Z := match d with 0 => [10; 11; 12; 13; 14; 15] | 1 => [20; 21; 22; 23; 24; 25; 26] | 2 => [30; 31] | _ => [] end.
Definition tpairs (d : Z) : list Z := flat_map (fun x => [x; x + 100]) (tdata d).
Definition tnew_parents (d : Z) : parents := match transfer_parents 2 d tmods (tprods d) (tsame2old d) (tsame2new d) tsame2new (tparents d) (tnew d) with Ok p => p | _ => ([], []) end.

Lemma t3 d : 0 <= d <= 2 -> d = 0 \/ d = 1 \/ d = 2.
Proof. lia. Qed.
Lemma tnumbering d : 0 <= d <= 2 -> new_numbers 2 d tmods (tprods d) (tsame2old d) (tsame2new d) (told d) (tnew d).
Proof.
  intros H. destruct (t3 d H) as [->|[->| ->]]; constructor; try (vm_compute; reflexivity); cbn; try lia.
  all: repeat constructor; cbn; lia.
Qed.
Lemma trefine_old : refine_old 2 tmods told.
Proof. intros d md H. assert (C : d = 1 \/ d = 2) by lia. destruct C as [->| ->]; cbn; lia. Qed.
Lemma trenumbers d : 0 <= d <= 2 -> renumbers (tsame2old d) (tsame2new d) (tsame2new d).
Proof.
  intros H e o (s & A & B). assert (E : o = s); [|congruence]. pose proof (zget_bounds _ _ _ B) as Bs.
  destruct (t3 d H) as [->|[->| ->]]; cbn [tsame2old] in B, Bs; unfold zlen in Bs; cbn in Bs.
  - assert (C : s = 0 \/ s = 1 \/ s = 2 \/ s = 3 \/ s = 4 \/ s = 5) by lia. destruct C as [->|[->|[->|[->|[->| ->]]]]]; vm_compute in B; congruence.
  - assert (C : s = 0 \/ s = 1 \/ s = 2 \/ s = 3 \/ s = 4 \/ s = 5 \/ s = 6) by lia. destruct C as [->|[->|[->|[->|[->|[->| ->]]]]]]; vm_compute in B; congruence.
  - assert (C : s = 0 \/ s = 1) by lia. destruct C as [->| ->]; vm_compute in B; congruence.
Qed.
Lemma tmods_stay d o : 1 <= d <= 2 -> In o (tmods d) -> In o (tsame2old d).
Proof. intros H. assert (C : d = 1 \/ d = 2) by lia. destruct C as [->| ->]; cbn; lia. Qed.
Lemma tparents_ok d : 0 <= d <= 2 -> parents_ok 2 told d (tparents d).
Proof.
  intros H. split; [|split]; [destruct (t3 d H) as [->|[->| ->]]; reflexivity..|]. intros e q c A B Hq. pose proof (zget_bounds _ _ _ A) as Be.
  destruct (t3 d H) as [->|[->| ->]]; cbn [tparents fst snd] in *; unfold zlen in Be; cbn in Be.
  - exfalso. apply zget_In in A. cbn in A. lia.
  - assert (C : e = 0 \/ e = 1 \/ e = 2 \/ e = 3 \/ e = 4 \/ e = 5 \/ e = 6) by lia. destruct C as [->|[->|[->|[->|[->|[->| ->]]]]]]; vm_compute in A, B; inversion A; inversion B; subst; try lia. cbn. lia.
  - exfalso. apply zget_In in A. cbn in A. lia.
Qed.
Lemma tlens d : 0 <= d <= 2 -> zlen (tlevels d) = told d /\ zlen (tdata d) = told d /\ zlen (tsame2new d) = told d /\ zlen (tpairs d) = told d * 2.
Proof. intros H. destruct (t3 d H) as [->|[->| ->]]; vm_compute; auto. Qed.
Lemma tlevels_small d l : In l (tlevels d) -> -1 <= l < 127.
Proof. destruct d as [|p|p]; [cbn; lia| |intros []]. destruct p as [p|p|]; [intros []| |cbn; lia]. destruct p; cbn; lia. Qed.
Lemma tnew_parents_ok d : 0 <= d <= 2 -> transfer_parents 2 d tmods (tprods d) (tsame2old d) (tsame2new d) tsame2new (tparents d) (tnew d) = Ok (tnew_parents d).
Proof. intros H. destruct (t3 d H) as [->|[->| ->]]; vm_compute; reflexivity. Qed.
Lemma tpairs_ub : transfer_inherit 2 2 tprods tsame2old tsame2new tpairs tnew_parents tnew = UB.
Proof. vm_compute. reflexivity. Qed.

Lemma inherit_pairs_w : exists dim mods p2n s2o s2n old2new (old_data : Z -> list Z) (old_parents np : Z -> parents) nold nnew,
  1 <= dim <= 3 /\ (forall d, 0 <= d <= dim -> new_numbers dim d mods (p2n d) (s2o d) (s2n d) (nold d) (nnew d)) /\ refine_old dim mods nold /\
  (forall d, 0 <= d <= dim -> zlen (old_data d) = nold d * 2) /\ (forall d, 0 <= d <= dim -> zlen (old2new d) = nold d) /\
  (forall d, 0 <= d <= dim -> renumbers (s2o d) (s2n d) (old2new d)) /\ (forall d o, 1 <= d <= dim -> In o (mods d) -> In o (s2o d)) /\
  (forall d, 0 <= d <= dim -> parents_ok dim nold d (old_parents d)) /\
  (forall d, 0 <= d <= dim -> transfer_parents dim d mods (p2n d) (s2o d) (s2n d) old2new (old_parents d) (nnew d) = Ok (np d)) /\
  transfer_inherit dim 2 p2n s2o s2n old_data np nnew = UB.
Proof.
  exists 2, tmods, tprods, tsame2old, tsame2new, tsame2new, tpairs, tparents, tnew_parents, told, tnew. split; [lia|]. split; [exact tnumbering|]. split; [exact trefine_old|]. split; [intros d H; apply (tlens d H)|]. split; [intros d H; apply (tlens d H)|].
  split; [exact trenumbers|]. split; [exact tmods_stay|]. split; [exact tparents_ok|]. split; [exact tnew_parents_ok|exact tpairs_ub].
Qed.
