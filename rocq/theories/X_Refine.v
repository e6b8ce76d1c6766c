(** Meshes for the edge split examples. *)
From Verif Require Import Prelude M_Array M_Map M_Align M_Template M_Graph M_Adj S_Map S_Graph S_Adj S_Swap3d S_Coarsen S_Refine P_Fan X_Coarsen.
Local Open Scope Z_scope.

Lemma ex_split_ok : split_mesh 2 ex_nents ex_verts (fun _ => ex_edge_up).
Proof.
  split; [lia|]. split. { intros d Hd. assert (d = 1 \/ d = 2) as [-> | ->] by lia; reflexivity. }
  intros d Hd. assert (d = 2) as -> by lia. split; [exact ex_edge_up_ok|]. split; [reflexivity | exact ex_distinct].
Qed.

(** one tet with its faces and edges numbered as the templates do *)
Definition one_tet_nents (d : Z) : Z := if d =? 0 then 4 else if d =? 1 then 6 else if d =? 2 then 4 else 1.
Definition one_tet_verts (d : Z) : list Z := if d =? 1 then [0; 1; 1; 2; 2; 0; 0; 3; 1; 3; 2; 3] else if d =? 2 then [0; 2; 1; 0; 1; 3; 1; 2; 3; 2; 0; 3] else [0; 1; 2; 3].
Definition one_tet_up (d : Z) : adj :=
  if d =? 2 then mk_adj [0; 2; 4; 6; 8; 10; 12] [0; 1; 0; 2; 0; 3; 1; 3; 1; 2; 2; 3]
    (Some [make_code false 1 2; make_code false 0 0; make_code false 1 1; make_code false 0 0; make_code false 1 0; make_code false 0 0;
           make_code false 1 2; make_code false 0 1; make_code false 0 1; make_code false 1 2; make_code false 0 1; make_code false 1 2])
  else mk_adj [0; 1; 2; 3; 4; 5; 6] [0; 0; 0; 0; 0; 0]
    (Some [make_code false 0 0; make_code false 0 1; make_code false 0 2; make_code false 0 3; make_code false 0 4; make_code false 0 5]).

(** checkers for the finite statements *)
Definition getZ (l : list Z) (i : Z) : Z := match zget l i with Ok x => x | _ => -77 end.
Definition fanb (f : list Z) : bool := forallb (fun i => getZ f i <=? getZ f (i + 1)) (zrange (zlen f - 1)).
Lemma fanb_ok f : zget f 0 = Ok 0 -> fanb f = true -> is_fan f.
Proof.
  intros E0 H. split; [exact E0|]. intros i lo hi El Eh. unfold fanb in H. rewrite forallb_forall in H. pose proof (zget_bounds _ _ _ El). pose proof (zget_bounds _ _ _ Eh). specialize (H i ltac:(apply in_zrange; lia)). unfold getZ in H. rewrite El, Eh in H. lia.
Qed.
Definition distinctb (dim : Z) (cv2v : list Z) (c : Z) : bool :=
  forallb (fun i => forallb (fun j => (i =? j) || negb (getZ cv2v (c * (dim + 1) + i) =? getZ cv2v (c * (dim + 1) + j))) (zrange (dim + 1))) (zrange (dim + 1)).
Lemma distinctb_ok dim cv2v c : distinctb dim cv2v c = true -> distinct_verts dim cv2v c.
Proof.
  intros H i j v Hi Hj E1 E2. unfold distinctb in H. rewrite forallb_forall in H. specialize (H i ltac:(apply in_zrange; lia)). rewrite forallb_forall in H. specialize (H j ltac:(apply in_zrange; lia)). unfold getZ in H. rewrite E1, E2, Z.eqb_refl in H. cbn in H. rewrite orb_false_r in H. apply Z.eqb_eq, H.
Qed.
Definition edge_upb (dim nc : Z) (ev2v cv2v : list Z) (a2ab ab2b codes : list Z) : bool :=
  forallb (fun e => let v0 := getZ ev2v (e * 2 + 0) in let v1 := getZ ev2v (e * 2 + 1) in
    let lo := getZ a2ab e in let hi := getZ a2ab (e + 1) in
    forallb (fun c => Bool.eqb (existsb (fun p => getZ ab2b p =? c) (zfromto lo hi)) (has_vertb dim cv2v c v0 && has_vertb dim cv2v c v1)) (zrange nc) &&
    forallb (fun p => let c := getZ ab2b p in let code := getZ codes p in (0 <=? c) && (c <? nc) &&
      (0 <=? code_which_down code) && (code_which_down code <? simplex_degree dim 1) && (0 <=? code_rotation code) && (code_rotation code <? 2) &&
      match zget cv2v (c * (dim + 1) + simplex_down_template dim 1 (code_which_down code) (Z.lxor (code_rotation code) 0)), zget cv2v (c * (dim + 1) + simplex_down_template dim 1 (code_which_down code) (Z.lxor (code_rotation code) 1)) with
      | Ok x, Ok y => (x =? v0) && (y =? v1) | _, _ => false end) (zfromto lo hi)) (zrange (zlen a2ab - 1)).
Lemma edge_upb_ok dim nc ev2v cv2v a : match adj_codes a with Some codes => wf_adj a /\ zlen codes = zlen (adj_ab2b a) /\ edge_upb dim nc ev2v cv2v (adj_a2ab a) (adj_ab2b a) codes = true | None => False end -> edge_up_ok dim nc ev2v cv2v a.
Proof.
  destruct (adj_codes a) as [codes|] eqn:Ec; [|contradiction]. intros (W & Lc & H). split; [exact W|]. exists codes. split; [exact Ec|]. intros e v0 v1 He E0 E1. unfold edge_upb in H. rewrite forallb_forall in H. specialize (H e ltac:(apply in_zrange; lia)). cbv zeta in H.
  assert (getZ ev2v (e * 2 + 0) = v0) as G0 by (unfold getZ; rewrite E0; reflexivity). assert (getZ ev2v (e * 2 + 1) = v1) as G1 by (unfold getZ; rewrite E1; reflexivity). rewrite G0, G1 in H. apply andb_prop in H as [H1 H2]. rewrite forallb_forall in H1, H2.
  assert (forall lo hi, zget (adj_a2ab a) e = Ok lo -> zget (adj_a2ab a) (e + 1) = Ok hi -> getZ (adj_a2ab a) e = lo /\ getZ (adj_a2ab a) (e + 1) = hi) as GA by (intros lo hi A B; unfold getZ; rewrite A, B; auto).
  split.
  - intros cs Ecs c. unfold adj_targets, targets in Ecs. cbn [M_Graph.a2ab M_Graph.ab2b] in Ecs. apply bind_ok in Ecs as (lo & El & Ecs). apply bind_ok in Ecs as (hi & Eh & Ecs). destruct (GA lo hi El Eh) as [GL GH]. rewrite GL, GH in *. apply mapM_ok in Ecs. rewrite !has_vert_b.
    assert (In c cs <-> exists p, In p (zfromto lo hi) /\ zget (adj_ab2b a) p = Ok c) as HI.
    { clear - Ecs. induction Ecs as [|p x l cs Hx _ IH]; [split; [intros [] | intros (p & [] & _)]|]. cbn [In]. rewrite IH. split; [intros [<-|(q & Hq & Eq)]; [exists p; auto | exists q; auto] | intros (q & [<-|Hq] & Eq); [left; congruence | right; eauto]]. }
    rewrite HI. split.
    + intros (p & Hp & Ep). pose proof (H2 p Hp) as K. unfold getZ at 1 2 in K. rewrite Ep in K. assert (0 <= c < nc) as Bc. { repeat (apply andb_prop in K as [K ?]). lia. } split; [exact Bc|]. specialize (H1 c ltac:(apply in_zrange; exact Bc)). apply eqb_prop in H1. apply andb_prop. rewrite <- H1. apply existsb_exists. exists p. split; [exact Hp|]. unfold getZ. rewrite Ep. apply Z.eqb_refl.
    + intros (Bc & A & B). specialize (H1 c ltac:(apply in_zrange; exact Bc)). apply eqb_prop in H1. rewrite A, B in H1. cbn [andb] in H1. apply existsb_exists in H1 as (p & Hp & Ep). exists p. split; [exact Hp|]. apply Z.eqb_eq in Ep. unfold getZ in Ep. destruct (zget (adj_ab2b a) p) as [z| |]; [congruence | lia | lia].
  - intros p (lo & hi & El & Eh & Hp). destruct (GA lo hi El Eh) as [GL GH]. rewrite GL, GH in *. specialize (H2 p ltac:(apply in_zfromto; exact Hp)).
    assert (0 <= p < zlen (adj_ab2b a)) as Bp. { destruct W as (W1 & W2 & _). apply (P_Fan.in_group_range (adj_a2ab a) (zlen (adj_ab2b a)) e p W1 W2). exists lo, hi. auto. }
    destruct (zget_in_range (adj_ab2b a) p Bp) as (c & Ecp). destruct (zget_in_range codes p ltac:(lia)) as (code & Ecode). exists c, code. split; [exact Ecp|]. split; [exact Ecode|]. unfold getZ in H2. rewrite Ecp, Ecode in H2. apply andb_prop in H2 as [H2 Hz]. repeat (apply andb_prop in H2 as [H2 ?]).
    destruct (zget cv2v (c * (dim + 1) + simplex_down_template dim 1 (code_which_down code) (Z.lxor (code_rotation code) 0))) as [x| |]; try discriminate. destruct (zget cv2v (c * (dim + 1) + simplex_down_template dim 1 (code_which_down code) (Z.lxor (code_rotation code) 1))) as [y| |]; try discriminate. apply andb_prop in Hz as [Hx Hy]. split; [lia|]. split; [lia|]. split; f_equal; lia.
Qed.

Lemma one_tet_ok : split_mesh 3 one_tet_nents one_tet_verts one_tet_up.
Proof.
  split; [lia|]. split. { intros d Hd. assert (d = 1 \/ d = 2 \/ d = 3) as [->|[->| ->]] by lia; reflexivity. }
  intros d Hd. assert (d = 2 \/ d = 3) as [-> | ->] by lia.
  - split; [|split; [reflexivity|]].
    + apply edge_upb_ok. cbn [adj_codes one_tet_up]. change (2 =? 2) with true. cbv iota. split; [|split; [reflexivity | vm_compute; reflexivity]]. split; [apply fanb_ok; reflexivity|]. split; [reflexivity|]. intros c E. injection E as <-. reflexivity.
    + intros c Hc. change (one_tet_nents 2) with 4 in Hc. assert (c = 0 \/ c = 1 \/ c = 2 \/ c = 3) as [->|[->|[->| ->]]] by lia; apply distinctb_ok; reflexivity.
  - split; [|split; [reflexivity|]].
    + apply edge_upb_ok. cbn [adj_codes one_tet_up]. change (3 =? 2) with false. cbv iota. split; [|split; [reflexivity | vm_compute; reflexivity]]. split; [apply fanb_ok; reflexivity|]. split; [reflexivity|]. intros c E. injection E as <-. reflexivity.
    + intros c Hc. change (one_tet_nents 3) with 1 in Hc. assert (c = 0) as -> by lia; apply distinctb_ok; reflexivity.
Qed.
