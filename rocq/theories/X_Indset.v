(** Example worlds for the independent set. *)
From Verif Require Import Prelude P_Map M_Dist S_Dist M_Owners S_Owners M_Graph S_Graph S_Map M_Indset S_Indset.
Local Open Scope Z_scope.

Definition entries (x : list (list Z)) : list (Z * Z * Z) :=
  flat_map (fun s => match zget x s with Ok a => flat_map (fun i => match zget a i with Ok v => [(s, i, v)] | _ => [] end) (zrange (zlen a)) | _ => [] end) (zrange (zlen x)).
Lemma entries_spec x s i v : goes_to x s i v <-> In (s, i, v) (entries x).
Proof.
  unfold entries. rewrite in_flat_map. split.
  - intros (a & A1 & A2). exists s. split; [apply in_zrange; eapply zget_bounds; eauto|]. rewrite A1. apply in_flat_map. exists i. split; [apply in_zrange; eapply zget_bounds; eauto|].
    rewrite A2. left. reflexivity.
  - intros (s' & _ & K). destruct (zget x s') as [a| |] eqn:E; [|destruct K|destruct K]. apply in_flat_map in K as (i' & _ & K).
    destruct (zget a i') as [w| |] eqn:F; [|destruct K|destruct K]. destruct K as [K|[]]. inversion K; subst. exists a. auto.
Qed.

(** the path 0 - 1 - 2 - 3 on two ranks, each with a ghost of the other's vertex; all but vertex 3 are candidates *)
Definition path_nodes := [0; 1; 2; 3].
Definition path_q (g : Z) : Z := if g =? 2 then 7 else 5.
Definition path_cand (g : Z) : bool := negb (g =? 3).
Definition path_nbrs (g : Z) : list Z := if g =? 0 then [1] else if g =? 1 then [0; 2] else if g =? 2 then [1; 3] else if g =? 3 then [2] else [].
Definition path_oranks := [[0; 0; 1]; [0; 1; 1]].
Definition path_oidxs := [[0; 1; 1]; [1; 1; 2]].
Definition path_graph := mk_graph [0; 1; 3; 4] [1; 0; 2; 1].
Definition path_quality := [[Some 5; Some 5; Some 7]; [Some 5; Some 7; Some 5]].
Definition path_global := [[0; 1; 2]; [1; 2; 3]].
Definition path_candidates := [[1; 1; 1]; [1; 1; 0]].

Lemma path_mutual : mutual path_nodes path_nbrs.
Proof. intros g h G H. vm_compute in G. repeat (destruct G as [<-|G]; [vm_compute in H; repeat (destruct H as [<-|H]; [vm_compute; intuition discriminate|]); destruct H|]). destruct G. Qed.

Ltac entry H := apply entries_spec in H; vm_compute in H.
Lemma two_ranks {A} (x y a : A) s : zget [x; y] s = Ok a -> (s = 0 /\ a = x) \/ (s = 1 /\ a = y).
Proof.
  intros H. pose proof (zget_bounds _ _ _ H) as B. change (zlen [x; y]) with 2 in B. assert (s = 0 \/ s = 1) as [->| ->] by lia; vm_compute in H; inversion H; auto.
Qed.

Lemma path_presents : presents path_nodes path_q path_cand path_nbrs true path_oranks path_oidxs [path_graph; path_graph] path_quality path_global path_candidates.
Proof.
  split; [|split; [reflexivity|split; [reflexivity|split; [|split; [|split; [|split; [|split]]]]]]].
  - split; [|split].
    + split; [reflexivity|]. intros s a b Ha Hb. apply two_ranks in Ha as [[-> ->]|[-> ->]]; vm_compute in Hb; inversion Hb; reflexivity.
    + intros s i t j [A B]. entry A. entry B. repeat (destruct A as [A|A]; [inversion A; subst; repeat (destruct B as [B|B]; [inversion B; subst; apply entries_spec; vm_compute; tauto|]); destruct B|]). destruct A.
    + intros s i A. entry A. repeat (destruct A as [A|A]; [inversion A; subst; apply entries_spec; vm_compute; tauto|]). destruct A.
  - split; [reflexivity|]. intros s a b Ha Hb. apply two_ranks in Ha as [[-> ->]|[-> ->]]; vm_compute in Hb; inversion Hb; reflexivity.
  - split; [reflexivity|]. intros s a b Ha Hb. apply two_ranks in Ha as [[-> ->]|[-> ->]]; vm_compute in Hb; inversion Hb; reflexivity.
  - assert (W : wf_graph path_graph).
    { split; [|reflexivity]. split; [reflexivity|]. intros i x y. intros. pose proof (zget_bounds _ _ _ H) as B. pose proof (zget_bounds _ _ _ H0) as B'. change (zlen (a2ab path_graph)) with 4 in B, B'.
      assert (i = 0 \/ i = 1 \/ i = 2) as [->|[->| ->]] by lia; vm_compute in H, H0; inversion H; inversion H0; lia. }
    assert (U : forall u, In u (ab2b path_graph) -> 0 <= u < 3) by (intros u Hu; change (ab2b path_graph) with [1; 0; 2; 1] in Hu; cbn [In] in Hu; lia).
    intros s a g Ha Hg. apply two_ranks in Ha as [[-> ->]|[-> ->]]; vm_compute in Hg; inversion Hg; subst g; (split; [exact W|split; [reflexivity|exact U]]).
  - intros s i g A. entry A. repeat (destruct A as [A|A]; [inversion A; subst; split; [vm_compute; tauto|split; [eexists; split; [vm_compute; reflexivity|vm_compute; reflexivity]|]];
      eexists; split; [apply entries_spec; vm_compute; tauto|vm_compute; intuition congruence]|]). destruct A.
  - intros _ s i t j g [A B] C. entry A. entry B. entry C.
    repeat (destruct A as [A|A]; [inversion A; subst; repeat (destruct B as [B|B]; [inversion B; subst; repeat (destruct C as [C|C]; [inversion C; subst; apply entries_spec; vm_compute; tauto|]); destruct C|]); destruct B|]). destruct A.
  - intros t j g gr us A C G T h. entry A. entry C. apply two_ranks in G as [[-> ->]|[-> ->]].
    all: repeat (destruct A as [A|A]; [first [discriminate A | inversion A; subst; repeat (destruct C as [C|C]; [first [discriminate C | inversion C; subst; vm_compute in T; inversion T; subst us;
      split; [intros Hh; vm_compute in Hh; repeat (destruct Hh as [<-|Hh]; [eexists; split; [|apply entries_spec; vm_compute; eauto 20]; vm_compute; tauto|]); destruct Hh
             |intros (u & U1 & U2); entry U2; vm_compute in U1; repeat (destruct U1 as [<-|U1]; [repeat (destruct U2 as [U2|U2]; [first [discriminate U2|inversion U2; subst; vm_compute; tauto]|]); destruct U2|]); destruct U1]]|]); destruct C]|]).
    all: destruct A.
Qed.

(** two neighbours whose quality is NaN, on one rank: the loop never ends *)
Definition nan_graph := mk_graph [0; 1; 2] [1; 0].
Lemma nan_loops inv fuel : find_indset fuel inv false [[0; 0]] [[0; 1]] [nan_graph] [[None; None]] [[0; 1]] [[1; 1]] = UB.
Proof.
  unfold find_indset. match goal with |- bind ?x _ = _ => replace x with (Ok [[2; 2]]) by (vm_compute; reflexivity) end. cbn [bind].
  induction fuel as [|fuel IH]; [reflexivity|]. cbn [indset_loop]. replace (max_state [[2; 2]] =? UNKNOWN) with true by (vm_compute; reflexivity).
  match goal with |- bind ?x _ = _ => replace x with (Ok [[2; 2]]) by (vm_compute; reflexivity) end. cbn [bind]. exact IH.
Qed.
