(** Example data for C83, generated by a script from coordinates: a coarse square (0) beside one (1) refined into 2 to 5, of which 3 is
    refined into 6 to 9; 4 and 5 are in the upper row. *)
From Coq Require Import Lia.
From Verif Require Import Prelude M_Array M_Par M_Graph S_Graph P_Graph M_Mark S_Mark M_Amr S_Amr P_Amr.
Local Open Scope Z_scope.

Definition ex_up : graph := of_lists [[0]; [0; 1]; [0]; [0]; [1]; [1]; [1]; [2]; [2; 3]; [2; 5]; [2]; [3]; [3]; [3; 4]; [4]; [4]; [4; 5]; [5]; [5]; [6]; [6; 7]; [6; 9]; [6]; [7]; [7]; [7; 8]; [8]; [8]; [8; 9]; [9]; [9]].
Definition ex_bridge_children : graph := of_lists [[]; [10; 18]; []; []; [7; 11]; [12; 14]; [17; 15]; []; [22; 30]; []; []; [19; 23]; [24; 26]; [29; 27]; []; []; []; []; []; []; []; []; []; []; []; []; []; []; []; []; []].
Definition ex_hmesh : hmesh := mk_hmesh 10 4
  [1; 0; 1; 0; 1; 1; 1; 1; 1; 1]
  [1; 0; 1; 1; 0; 0; 0; 1; 0; 1; 1; 0; 0; 0; 1; 1; 1; 1; 1; 1; 1; 1; 1; 1; 1; 1; 1; 1; 1; 1; 1]
  [0; 1; 2; 3; 4; 5; 6; 1; 7; 8; 9; 10; 11; 12; 13; 8; 13; 14; 15; 16; 9; 16; 17; 18; 19; 20; 21; 22; 23; 24; 25; 20; 25; 26; 27; 28; 21; 28; 29; 30]
  ex_up
  [0; 1; 0; 0; 0; 0; 0; 0; 1; 1; 1; 0; 0; 1; 0; 0; 1; 0; 1; 0; 1; 1; 1; 0; 0; 1; 0; 1; 1; 1; 1]
  ex_bridge_children.
Definition ex_elem_children : graph := of_lists [[]; [2; 3; 4; 5]; []; [6; 7; 8; 9]; []; []; []; []; []; []].
(** only element 6, in the corner at element 2, is marked *)
Definition ex_hmarks : list Z := [0; 0; 0; 0; 0; 0; 1; 0; 0; 0].

(** One iteration after the other, in this order. *)
Definition one_by_one (order : list nat) : list nat := concat (map (fun i => repeat i 9) order).
Definition forwards : list nat := one_by_one (seq 0 10).
Definition backwards : list nat := one_by_one (rev (seq 0 10)).
Definition zeroed : mem Z := fun _ => 0.
(** something lies in the entry of element 5 *)
Definition stale : mem Z := fun l => match l with (_, 5%nat) => 77 | _ => 0 end.
Definition ex_no_marks : list Z := repeat 0 10.

Definition in_rangeb (l : list Z) (n : Z) : bool := forallb (fun x => (0 <=? x) && (x <? n))%bool l.
Lemma in_rangeb_ok l n : in_rangeb l n = true -> forall x, In x l -> 0 <= x < n.
Proof. intros H x Hx. unfold in_rangeb in H. rewrite forallb_forall in H. specialize (H x Hx). lia. Qed.

Lemma ex_hmesh_ok : forall marks, zlen marks = 10 -> hmesh_ok ex_hmesh marks.
Proof.
  intros marks Hm. constructor.
  - discriminate.
  - discriminate.
  - reflexivity.
  - exact Hm.
  - split; [reflexivity|]. apply in_rangeb_ok. vm_compute. reflexivity.
  - reflexivity.
  - split; [apply of_lists_wf|]. split; [vm_compute; reflexivity|]. apply in_rangeb_ok. vm_compute. reflexivity.
  - split; [apply of_lists_wf|]. split; [vm_compute; reflexivity|]. apply in_rangeb_ok. vm_compute. reflexivity.
Qed.

Lemma runs_forwards : enforce_2to1_refine zeroed forwards ex_hmesh 2 1 ex_hmarks = Ok (Some [0; 0; 1; 0; 0; 0; 1; 0; 0; 0]).
Proof. vm_compute. reflexivity. Qed.
Lemma runs_backwards : enforce_2to1_refine zeroed backwards ex_hmesh 2 1 ex_hmarks = Ok (Some [1; 0; 1; 0; 0; 0; 1; 0; 0; 0]).
Proof. vm_compute. reflexivity. Qed.

Lemma runs_stale : enforce_2to1_refine stale forwards ex_hmesh 2 1 ex_no_marks = Ok (Some [1; 0; 0; 0; 0; 0; 0; 0; 0; 0]).
Proof. vm_compute. reflexivity. Qed.

Lemma ex_one_sided : one_sided ex_hmesh ex_hmarks.
Proof. apply (enforce_ok_one_sided ex_hmesh ex_hmarks (ex_hmesh_ok ex_hmarks eq_refl) zeroed forwards 2 1 _ ltac:(lia) runs_forwards). Qed.
Lemma ex_one_sided_none : one_sided ex_hmesh ex_no_marks.
Proof. apply (enforce_ok_one_sided ex_hmesh ex_no_marks (ex_hmesh_ok ex_no_marks eq_refl) stale forwards 2 1 _ ltac:(lia) runs_stale). Qed.

Lemma result_does_not_depend_refuted : exists m marks before s1 s2 r1 r2, hmesh_ok m marks /\ one_sided m marks /\ (forall l, before l = 0) /\
  enforce_2to1_refine before s1 m 2 1 marks = Ok (Some r1) /\ enforce_2to1_refine before s2 m 2 1 marks = Ok (Some r2) /\ r1 <> r2.
Proof.
  eexists ex_hmesh, ex_hmarks, zeroed, forwards, backwards, _, _. split; [apply ex_hmesh_ok; reflexivity|]. split; [exact ex_one_sided|]. split; [reflexivity|].
  split; [exact runs_forwards|]. split; [exact runs_backwards|]. discriminate.
Qed.

Lemma nothing_from_nothing_refuted : exists m marks before s r e, hmesh_ok m marks /\ one_sided m marks /\ (forall x, ~ marked marks x) /\
  enforce_2to1_refine before s m 2 1 marks = Ok (Some r) /\ marked r e.
Proof.
  eexists ex_hmesh, ex_no_marks, stale, forwards, _, 0. split; [apply ex_hmesh_ok; reflexivity|]. split; [exact ex_one_sided_none|]. split.
  { intros x (v & Ev & Hv). apply Hv. apply zget_In in Ev. exact (repeat_spec _ _ _ Ev). }
  split; [exact runs_stale|]. exists 1. split; [reflexivity|discriminate].
Qed.

(** Two rows with no chain: with element 7 marked instead, which touches no coarser element, the result is the marks. *)
Definition ex_far_marks : list Z := [0; 0; 0; 0; 0; 0; 0; 1; 0; 0].

(** Edges of a cube beside a refined cube, where a part of an edge has two elements: what the check rejects.  Two elements share the parts
    of the bridge 0 of element 0. *)
Definition ex_two_sided : hmesh := mk_hmesh 3 1 [1; 1; 1] [0; 1; 1] [0; 1; 1] (of_lists [[0]; [1; 2]; []]) [1; 1; 1] (of_lists [[1; 2]; []; []]).
Lemma ex_two_sided_ok : hmesh_ok ex_two_sided [0; 0; 0].
Proof.
  constructor; try reflexivity; try discriminate.
  - split; [reflexivity|]. apply in_rangeb_ok. vm_compute. reflexivity.
  - split; [apply of_lists_wf|]. split; [vm_compute; reflexivity|]. apply in_rangeb_ok. vm_compute. reflexivity.
  - split; [apply of_lists_wf|]. split; [vm_compute; reflexivity|]. apply in_rangeb_ok. vm_compute. reflexivity.
Qed.
Lemma runs_two_sided : enforce_2to1_refine zeroed forwards ex_two_sided 3 1 [0; 0; 0] = Abort.
Proof. vm_compute. reflexivity. Qed.

Lemma far_finer e : marked (h_elem_leaf ex_hmesh) e -> ~ finer ex_hmesh e 7.
Proof.
  intros (l & El & _) F. apply zget_bounds in El. change (zlen (h_elem_leaf ex_hmesh)) with 10 in El.
  assert (C : forallb (fun e => match looked_at ex_hmesh ex_far_marks e with Ok cs => negb (existsb (fun c => fst c =? 7) cs) | _ => false end) (zrange 10) = true) by (vm_compute; reflexivity).
  rewrite forallb_forall in C. specialize (C e (proj2 (in_zrange 10 e) El)).
  destruct (looked_ok ex_hmesh ex_far_marks (ex_hmesh_ok ex_far_marks eq_refl) e El) as [(cs & E & S & _)|(E & _)]; rewrite E in C; [|discriminate].
  assert (In (7, 1) cs) by (apply S; split; [exact F|reflexivity]).
  apply negb_true_iff in C. assert (existsb (fun c => fst c =? 7) cs = true) by (apply existsb_exists; exists (7, 1); auto). congruence.
Qed.
Lemma far_marked e : marked ex_far_marks e -> e = 7.
Proof.
  intros (x & Ex & Hx). pose proof (zget_bounds _ _ _ Ex) as B. change (zlen ex_far_marks) with 10 in B.
  assert (C : forallb (fun e => match zget ex_far_marks e with Ok v => ((v =? 0) || (e =? 7))%bool | _ => false end) (zrange 10) = true) by (vm_compute; reflexivity).
  rewrite forallb_forall in C. specialize (C e (proj2 (in_zrange 10 e) B)). rewrite Ex in C. lia.
Qed.
Lemma ex_no_chains : hmesh_ok ex_hmesh ex_far_marks /\ (forall e c, marked (h_elem_leaf ex_hmesh) e -> finer ex_hmesh e c -> must ex_hmesh ex_far_marks c -> must ex_hmesh ex_far_marks e) /\
  enforce_2to1_refine zeroed backwards ex_hmesh 2 1 ex_far_marks = Ok (Some ex_far_marks).
Proof.
  split; [apply ex_hmesh_ok; reflexivity|]. split; [|vm_compute; reflexivity].
  intros e c Le F (Lc & [M|(c' & F' & M)]); apply far_marked in M; subst.
  - exfalso. exact (far_finer e Le F).
  - exfalso. exact (far_finer c Lc F').
Qed.
