(** Two triangles (0,1,2) and (0,2,3); vertex 0 is collapsed onto vertex 1 along edge 0. *)
From Verif Require Import Prelude M_Array M_Map M_Align M_Template M_Graph M_Adj M_Swap3d M_Coarsen S_Map S_Graph S_Adj S_Swap3d S_Coarsen.
Local Open Scope Z_scope.

Definition ex_edges : list Z := [0; 1; 1; 2; 2; 0; 2; 3; 3; 0].
Definition ex_tris : list Z := [0; 1; 2; 0; 2; 3].
Definition ex_down : list Z := [0; 1; 2; 2; 3; 4].
Definition ex_edge_up : adj := mk_adj [0; 1; 2; 4; 5; 6] [0; 0; 0; 1; 1; 1]
  (Some [make_code false 0 0; make_code false 0 1; make_code false 0 2; make_code false 1 0; make_code false 0 1; make_code false 0 2]).
Definition ex_vert_up : adj := mk_adj [0; 2; 3; 5; 6] [0; 1; 0; 0; 1; 1]
  (Some [make_code false 0 0; make_code false 0 0; make_code false 0 1; make_code false 0 2; make_code false 0 1; make_code false 0 2]).
Definition ex_nents (d : Z) : Z := if d =? 0 then 4 else if d =? 1 then 5 else if d =? 2 then 2 else 0.
Definition ex_verts (d : Z) : list Z := if d =? 1 then ex_edges else ex_tris.

Definition has_vertb (dim : Z) (cv2v : list Z) (c v : Z) : bool := existsb (fun j => match zget cv2v (c * (dim + 1) + j) with Ok x => x =? v | _ => false end) (zrange (dim + 1)).
Lemma has_vert_b dim cv2v c v : has_vert dim cv2v c v <-> has_vertb dim cv2v c v = true.
Proof.
  unfold has_vertb. rewrite existsb_exists. split.
  - intros (j & Hj & E). exists j. rewrite in_zrange. split; [lia|]. rewrite E. apply Z.eqb_refl.
  - intros (j & Hj & E). rewrite in_zrange in Hj. exists j. split; [lia|]. destruct (zget cv2v (c * (dim + 1) + j)); try discriminate. apply Z.eqb_eq in E. congruence.
Qed.
Lemma cases5 e : 0 <= e < 5 -> e = 0 \/ e = 1 \/ e = 2 \/ e = 3 \/ e = 4. Proof. lia. Qed.
Lemma cases3 e : 0 <= e <= 2 -> e = 0 \/ e = 1 \/ e = 2. Proof. lia. Qed.
Lemma cases2 e : 0 <= e < 2 -> e = 0 \/ e = 1. Proof. lia. Qed.

Lemma ex_fan5 : is_fan [0; 1; 2; 4; 5; 6].
Proof.
  split; [reflexivity|]. intros a lo hi H1 H2. pose proof (zget_bounds _ _ _ H1) as B. pose proof (zget_bounds _ _ _ H2) as B2. change (zlen [0; 1; 2; 4; 5; 6]) with 6 in *. destruct (cases5 a) as [->|[->|[->|[->| ->]]]]; [lia|..]; vm_compute in H1, H2; injection H1 as <-; injection H2 as <-; lia.
Qed.
Lemma ex_fan4 : is_fan [0; 2; 3; 5; 6].
Proof.
  split; [reflexivity|]. intros a lo hi H1 H2. pose proof (zget_bounds _ _ _ H1) as B. pose proof (zget_bounds _ _ _ H2) as B2. change (zlen [0; 2; 3; 5; 6]) with 5 in *. destruct (cases5 a) as [->|[->|[->|[->| ->]]]]; [lia|..]; try lia; vm_compute in H1, H2; injection H1 as <-; injection H2 as <-; lia.
Qed.

Lemma ex_distinct c : 0 <= c < 2 -> distinct_verts 2 ex_tris c.
Proof.
  intros Hc i j v Hi Hj E1 E2. apply cases3 in Hi, Hj. apply cases2 in Hc. destruct Hc as [->| ->], Hi as [->|[->| ->]], Hj as [->|[->| ->]]; try reflexivity; vm_compute in E1, E2; congruence.
Qed.
Lemma ex_edge_up_ok : edge_up_ok 2 2 ex_edges ex_tris ex_edge_up.
Proof.
  split; [split; [exact ex_fan5 | split; [reflexivity | intros c H; injection H as <-; reflexivity]]|]. eexists. split; [reflexivity|].
  intros e v0 v1 He E0 E1. change (zlen (adj_a2ab ex_edge_up) - 1) with 5 in He. split.
  - intros cs Ecs c. rewrite !has_vert_b. apply cases5 in He. destruct He as [->|[->|[->|[->| ->]]]]; vm_compute in E0, E1, Ecs; injection E0 as <-; injection E1 as <-; injection Ecs as <-; (split;
      [cbn [In]; intros H; repeat (destruct H as [<-|H]; [split; [lia | split; reflexivity]|]); contradiction |
       intros (Hc & A & B); apply cases2 in Hc; destruct Hc as [->| ->]; vm_compute in A, B; try discriminate; cbn [In]; auto]).
  - intros ec (lo & hi & G1 & G2 & G3). apply cases5 in He. destruct He as [->|[->|[->|[->| ->]]]]; vm_compute in E0, E1, G1, G2; injection E0 as <-; injection E1 as <-; injection G1 as <-; injection G2 as <-.
    + assert (ec = 0) as -> by lia. do 2 eexists. split; [reflexivity|]. split; [reflexivity|]. vm_compute. repeat split; congruence.
    + assert (ec = 1) as -> by lia. do 2 eexists. split; [reflexivity|]. split; [reflexivity|]. vm_compute. repeat split; congruence.
    + assert (ec = 2 \/ ec = 3) as [->| ->] by lia; do 2 eexists; (split; [reflexivity|]); (split; [reflexivity|]); vm_compute; repeat split; congruence.
    + assert (ec = 4) as -> by lia. do 2 eexists. split; [reflexivity|]. split; [reflexivity|]. vm_compute. repeat split; congruence.
    + assert (ec = 5) as -> by lia. do 2 eexists. split; [reflexivity|]. split; [reflexivity|]. vm_compute. repeat split; congruence.
Qed.
Lemma ex_sides_ok : sides_ok 2 2 5 ex_tris ex_edges ex_down.
Proof.
  intros c k Hc Hk. apply cases2 in Hc. apply cases3 in Hk. destruct Hc as [->| ->], Hk as [->|[->| ->]]; (eexists; split; [reflexivity|]; split; [lia|]; intros v; split;
   [intros (j & Hj & E); assert (j = 0 \/ j = 1) as [->| ->] by lia; vm_compute in E; injection E as <-; (exists 0; split; [lia | reflexivity]) || (exists 1; split; [lia | reflexivity]) |
    intros (j & Hj & E); assert (j = 0 \/ j = 1) as [->| ->] by lia; vm_compute in E; injection E as <-; (exists 0; split; [lia | reflexivity]) || (exists 1; split; [lia | reflexivity])]).
Qed.
Lemma ex_mesh_ok : simplex_mesh 2 ex_nents ex_verts (fun _ => ex_edge_up) (fun _ => ex_down) /\ rails_ok (ex_nents 1) (ex_verts 1) [0] [0].
Proof.
  split.
  - split; [lia|]. split; [intros d; unfold ex_nents; destruct (d =? 0), (d =? 1), (d =? 2); lia|]. intros d Hd. assert (d = 2) as -> by lia. split; [exact ex_edge_up_ok|]. split; [reflexivity|]. split; [exact ex_sides_ok|]. exact ex_distinct.
  - split; [reflexivity|]. split; [reflexivity|]. split; cbn [In]; intros x [<-|[]]; [vm_compute; split; congruence | auto].
Qed.
Lemma ex_vert_up_ok : vert_up_ok 2 ex_tris ex_vert_up.
Proof.
  split; [split; [exact ex_fan4 | split; [reflexivity | intros c H; injection H as <-; reflexivity]]|]. eexists. split; [reflexivity|].
  intros v p c code (lo & hi & G1 & G2 & G3) Ec Ecode. pose proof (zget_bounds _ _ _ G1) as B1. pose proof (zget_bounds _ _ _ G2) as B2. change (zlen (adj_a2ab ex_vert_up)) with 5 in *.
  destruct (cases5 v) as [->|[->|[->|[->| ->]]]]; try lia; vm_compute in G1, G2; injection G1 as <-; injection G2 as <-.
  - assert (p = 0 \/ p = 1) as [->| ->] by lia; vm_compute in Ec, Ecode; injection Ec as <-; injection Ecode as <-; (split; [vm_compute; split; congruence | split; [reflexivity | apply ex_distinct; lia]]).
  - assert (p = 2) as -> by lia; vm_compute in Ec, Ecode; injection Ec as <-; injection Ecode as <-; (split; [vm_compute; split; congruence | split; [reflexivity | apply ex_distinct; lia]]).
  - assert (p = 3 \/ p = 4) as [->| ->] by lia; vm_compute in Ec, Ecode; injection Ec as <-; injection Ecode as <-; (split; [vm_compute; split; congruence | split; [reflexivity | apply ex_distinct; lia]]).
  - assert (p = 5) as -> by lia; vm_compute in Ec, Ecode; injection Ec as <-; injection Ecode as <-; (split; [vm_compute; split; congruence | split; [reflexivity | apply ex_distinct; lia]]).
Qed.
