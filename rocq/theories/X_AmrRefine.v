(** Example data for C87: two squares of which the left one is refined.  Vertices 0 to 5 are the corners (0,0) (1,0) (2,0) (0,1) (1,1) (2,1),
    edges 01 12 03 14 25 34 45, squares 0143 and 1254.  Vertex 6 stands for what the right square was refined to before: it can be the child of
    edge 14.  Whether edge 14 is marked and which children it has varies. *)
From Coq Require Import Lia.
From Verif Require Import Prelude M_Array M_ArrayOps S_ArrayOps S_Scan M_Align M_Graph M_Adj M_Parents M_Template M_Modify S_Map S_Graph S_Adj S_Modify P_Graph M_AmrTopo S_AmrTopo M_AmrTransfer S_AmrTransfer M_AmrRefine S_AmrRefine X_Modify X_AmrTopo.
Local Open Scope Z_scope.

Definition up_of (down : list Z) (deg nlow : Z) : adj :=
  let us := map (uses_of down) (zrange nlow) in
  mk_adj (fold_left (fun acc u => acc ++ [last acc 0 + zlen u]) us [0]) (map (fun hl => hl / deg) (concat us)) (Some (map (fun hl => make_code false 0 (hl mod deg)) (concat us))).
Definition quads_nents (d : Z) : Z := match d with 0 => 7 | 1 => 7 | 2 => 2 | _ => 0 end.
Definition quads_up10 : adj := Eval vm_compute in up_of (xlows 1 0) 2 7.
Definition quads_up20 : adj := Eval vm_compute in up_of (xlows 2 0) 4 7.
Definition quads_up21 : adj := Eval vm_compute in up_of (xlows 2 1) 4 7.
Definition quads_up (a b : Z) : adj := match a, b with 0, 1 => quads_up10 | 0, _ => quads_up20 | _, _ => quads_up21 end.
Definition quads : mesh_view := mk_mesh 2 quads_nents quads_up xlows (fun b _ => if b =? 1 then 2 else 4) (fun d => repeat 1 (Z.to_nat (quads_nents d))).

Lemma quads_consistent : consistent quads.
Proof.
  split; [cbn; lia|]. split.
  - intros d Hd. cbn [mesh_dim quads] in Hd. cbn [nents quads owned]. assert (d = 0 \/ d = 1 \/ d = 2) as [->|[->| ->]] by lia; (split; [vm_compute; discriminate|reflexivity]).
  - intros a b Ha Hab Hb. cbn [mesh_dim quads] in Hb. assert ((a = 0 /\ b = 1) \/ (a = 0 /\ b = 2) \/ (a = 1 /\ b = 2)) as [(-> & ->)|[(-> & ->)|(-> & ->)]] by lia;
    (split; [reflexivity|]; split; [reflexivity|]; split; [apply within_ok; vm_compute; reflexivity|]; apply checked_lists; [split; [split; [reflexivity|apply nondec_ok; vm_compute; reflexivity]|split; [reflexivity|intros c E; injection E as <-; reflexivity]]|reflexivity|vm_compute; reflexivity]).
Qed.

Definition qmarks (shared d : Z) : list Z := match d with 0 => [1; 1; 0; 1; 1; 0; 0] | 1 => [1; 0; 1; shared; 0; 1; 0] | 2 => [1; 0] | _ => [] end.
Definition qparents (d : Z) : parents := match d with
  | 0 => ([-1; -1; -1; -1; -1; -1; 3], [0; 0; 0; 0; 0; 0; 1]) | 1 => ([-1; -1; -1; -1; -1; -1; -1], [0; 0; 0; 0; 0; 0; 0]) | 2 => ([-1; -1], [0; 0]) | _ => ([], []) end.
Definition qold (shared : Z) (middle : list Z) : old_mesh := {| o_ms := quads; o_marks := qmarks shared; o_kids := xkids middle;
  o_levels := fun d => match d with 0 => [0; 0; 0; 0; 0; 0; 1] | 1 => [0; 0; 0; 0; 0; 0; 0] | 2 => [0; 0] | _ => [] end;
  o_leaves := fun d => match d with 1 => [1; 1; 1; 1; 1; 1; 1] | 2 => [1; 0] | _ => [] end; o_parents := qparents;
  o_data := fun d => match d with 0 => [10; 11; 12; 13; 14; 15; 16] | 1 => [20; 21; 22; 23; 24; 25; 26] | 2 => [30; 31] | _ => [] end |}.

Lemma marked_few o mods d : are_marked o mods -> 0 <= d <= mesh_dim (o_ms o) -> zlen (mods d) <= zlen (o_marks o d).
Proof.
  intros A Hd. destruct (A d Hd) as (N & I). rewrite <- (zlen_zrange (zlen (o_marks o d))) by apply zlen_nonneg. unfold zlen at 1 2. apply inj_le. apply NoDup_incl_length; [exact N|].
  intros x Hx. apply in_zrange. apply I in Hx. exact (zget_bounds _ _ _ Hx).
Qed.
Definition verts_marked (shared d : Z) : bool := forallb (fun md => match zget (qmarks shared d) md with Ok 1 => forallb (fun i =>
  match zget (xlows d 0) (md * hypercube_degree d 0 + i) with Ok v => match zget (qmarks shared 0) v with Ok 1 => true | _ => false end | _ => true end) (zrange (hypercube_degree d 0)) | _ => true end) (zrange 7).
Lemma qold_refinable shared middle : shared = 0 \/ shared = 1 -> (forall v, In v middle -> 0 <= v < 7) -> refinable Serial (qold shared middle).
Proof.
  intros HS HM. constructor; cbn [o_ms o_marks o_kids o_levels o_leaves o_parents o_data qold]; cbn [mesh_dim nents degree ask_down quads].
  - exact quads_consistent.
  - lia.
  - intros hi lo H1 H2 H3. assert (hi = 1 /\ lo = 0 \/ hi = 2 /\ lo = 0 \/ hi = 2 /\ lo = 1) as [(-> & ->)|[(-> & ->)|(-> & ->)]] by lia; reflexivity.
  - intros d H. destruct (dim3 d H) as [->|[->| ->]]; (split; [reflexivity|cbn; lia]).
  - intros d _. exact I.
  - intros mods j A Hj. pose proof (marked_few _ _ 1 A) as F1. pose proof (marked_few _ _ 2 A) as F2. cbn in F1, F2. specialize (F1 ltac:(lia)). specialize (F2 ltac:(lia)).
    change (zlen [1; 0; 1; shared; 0; 1; 0]) with 7 in F1. change (zlen [1; 0]) with 2 in F2. change (2 ^ 31) with 2147483648. unfold products.
    destruct (dim3 j Hj) as [->|[->| ->]].
    + change (zfromto (Z.max 1 0) (2 + 1)) with [1; 2]. cbn [map]. change (hypercube_split_degree 1 0) with 1. change (hypercube_split_degree 2 0) with 1. unfold zsum. cbn [fold_right]. lia.
    + change (zfromto (Z.max 1 1) (2 + 1)) with [1; 2]. cbn [map]. change (hypercube_split_degree 1 1) with 2. change (hypercube_split_degree 2 1) with 4. unfold zsum. cbn [fold_right]. lia.
    + change (zfromto (Z.max 1 2) (2 + 1)) with [2]. cbn [map]. change (hypercube_split_degree 2 2) with 4. unfold zsum. cbn [fold_right]. lia.
  - intros d md i v Hd Hm Hi E. assert (V : verts_marked shared d = true) by (assert (C : d = 1 \/ d = 2) by lia; destruct C as [->| ->], HS as [->| ->]; vm_compute; reflexivity).
    unfold verts_marked in V. rewrite forallb_forall in V. specialize (V md). rewrite in_zrange in V. pose proof (zget_bounds _ _ _ Hm) as B. assert (B7 : 0 <= md < 7) by (assert (C : d = 1 \/ d = 2) by lia; destruct C as [->| ->]; cbn in B; unfold zlen in B; cbn in B; lia).
    specialize (V B7). rewrite Hm in V. rewrite forallb_forall in V. specialize (V i). rewrite in_zrange in V. specialize (V Hi). rewrite E in V. destruct (zget (qmarks shared 0) v) as [x| |]; [|discriminate..]. destruct x as [|[]|]; try discriminate. reflexivity.
  - intros d H. assert (C : d = 1 \/ d = 2) by lia. destruct C as [->| ->]; (split; [apply of_lists_wf|]); split; try reflexivity.
    + intros v Hv. cbn in Hv. rewrite app_nil_r in Hv. exact (HM v Hv).
    + intros v [].
  - intros d H. destruct (dim3 d H) as [->|[->| ->]]; reflexivity.
  - intros d l. destruct d as [|p|p]; [cbn; lia| |intros []]. destruct p as [p|p|]; [intros []| |cbn; lia]. destruct p; cbn; lia.
  - intros d H. assert (C : d = 1 \/ d = 2) by lia. destruct C as [->| ->]; reflexivity.
  - intros d H. split; [|split]; [destruct (dim3 d H) as [->|[->| ->]]; reflexivity..|]. intros e q c A B Hq. pose proof (zget_bounds _ _ _ A) as Be.
    destruct (dim3 d H) as [->|[->| ->]]; cbn [qparents fst snd] in *; unfold zlen in Be; cbn in Be.
    + assert (C : e = 0 \/ e = 1 \/ e = 2 \/ e = 3 \/ e = 4 \/ e = 5 \/ e = 6) by lia. destruct C as [->|[->|[->|[->|[->|[->| ->]]]]]]; vm_compute in A, B; inversion A; inversion B; subst; try lia. cbn. lia.
    + exfalso. apply zget_In in A. cbn in A. lia.
    + exfalso. apply zget_In in A. cbn in A. lia.
  - intros d H. destruct (dim3 d H) as [->|[->| ->]]; reflexivity.
Qed.
