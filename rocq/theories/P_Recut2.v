(** Swapping edges of a 3D mesh: what a configuration makes, by positions on the loop. *)
From Coq Require Import String Permutation Sorted.
From Verif Require Import Prelude M_Array P_Array M_SwapTables M_Swap3d S_Swap3d S_SwapMesh P_SwapTables P_Loop P_SwapVolume P_SwapKey M_Tags M_MeshAdj S_MeshAdj S_RefineMesh P_RefineMesh1 S_Recut.
Local Open Scope Z_scope.

(** labels: 0 to n-1 for the loop, n and n+1 for the ends of the edge *)
Definition tri_wedges (n : Z) (t : list Z) : list (list Z) := match t with [a; b; c] => [[a; c; b; n]; [a; b; c; n + 1]] | _ => [] end.
Definition made (n : Z) (E Ts : list (list Z)) (d : Z) : list (list Z) :=
  if d =? 1 then E else if d =? 2 then flat_map (edge_tris [n; n + 1]) E ++ Ts else flat_map (tri_wedges n) Ts.
Definition diag_of (k : Z) (e : list Z) : list recut_origin := [Diag k (fst (norm e)) (snd (norm e))].
Definition walls_of (k : Z) (e : list Z) : list recut_origin := [Wall k (fst (norm e)) (snd (norm e)) 0; Wall k (fst (norm e)) (snd (norm e)) 1].
Definition plane_of (k : Z) (t : list Z) : list recut_origin := match t with [a; b; c] => [Plane k a b c] | _ => [] end.
Definition wedges_of (k : Z) (t : list Z) : list recut_origin := match t with [a; b; c] => [Wedge k a b c 0; Wedge k a b c 1] | _ => [] end.
Definition key_origs (k : Z) (E Ts : list (list Z)) (d : Z) : list recut_origin :=
  if d =? 1 then flat_map (diag_of k) E else if d =? 2 then flat_map (walls_of k) E ++ flat_map (plane_of k) Ts else if d =? 3 then flat_map (wedges_of k) Ts else [].
Definition key_of (o : recut_origin) : Z := match o with Stands _ => 0 | Diag k _ _ => k | Wall k _ _ _ => k | Plane k _ _ _ => k | Wedge k _ _ _ _ => k end.
Definition labels_of (n : Z) (o : recut_origin) : list Z :=
  match o with Stands _ => [] | Diag _ a b => [a; b] | Wall _ a b s => [a; b; n + s] | Plane _ a b c => [a; b; c] | Wedge _ a b c s => [a; b; c; n + s] end.
Definition sub (a b : list Z) : bool := forallb (has b) a.
Lemma sub_ok a b : sub a b = true <-> incl a b.
Proof. unfold sub. rewrite forallb_forall. split; intros H x I; [apply has_ok, H, I|apply has_ok, H, I]. Qed.
Definition chars (n : Z) (q : list Z) : list Z := filter (has q) (zrange (n + 2)).
Lemma chars_perm n q q' : Permutation q q' -> chars n q = chars n q'.
Proof. intros P. apply filter_ext. intros x. destruct (has q' x) eqn:E; [apply has_ok, (Permutation_in _ (Permutation_sym P)), has_ok, E|]. destruct (has q x) eqn:E'; [|reflexivity]. apply has_ok, (Permutation_in _ P), has_ok in E'. congruence. Qed.
Definition newish (n : Z) (E : list (list Z)) (q : list Z) : bool := existsb (fun e => sub e q) E || (n =? 3) && sub [0; 1; 2] q.
Definition oldish (n : Z) (q : list Z) : bool := existsb (sub q) (old_labels n).
Definition both (n : Z) (q : list Z) : bool := has q n && has q (n + 1).
Definition hasl (x : Z) (l : list Z) : bool := has l x.
Fixpoint eqll (a b : list (list Z)) : bool := match a, b with [], [] => true | x :: a, y :: b => eql x y && eqll a b | _, _ => false end.
Lemma eqll_ok a : forall b, eqll a b = true -> a = b.
Proof. induction a as [|x a IH]; intros [|y b] H; cbn in H; try discriminate; [reflexivity|]. apply andb_true_iff in H as [H1 H2]. apply eql_ok in H1 as ->. f_equal. apply IH, H2. Qed.
Definition check_dim (n : Z) (E Ts : list (list Z)) (d : Z) : bool :=
  forallb (fun q => (zlen q =? d + 1) && nodup_by hasl q && in_labels (n + 2) q && negb (both n q) && newish n E q && forallb (fun s => newish n E s || oldish n s) (sublists q)) (made n E Ts d) &&
  nodup_by meml (map (chars n) (made n E Ts d)) && eqll (map (chars n) (made n E Ts d)) (map (labels_of n) (key_origs 0 E Ts d)).
Definition check_sides (n : Z) (E Ts : list (list Z)) (d : Z) : bool :=
  forallb (fun q => forallb (fun y => existsb (fun s => (zlen s =? d) && sub s (rm y q)) (made n E Ts (d - 1)) || oldish n (rm y q)) q) (made n E Ts d).
Definition check_recut (n m : Z) : bool :=
  oks (config_edges n m) (fun E => oks (config_tris n m) (fun Ts =>
    forallb (check_dim n E Ts) [1; 2; 3] && forallb (check_sides n E Ts) [2; 3] &&
    forallb (fun d => forallb (fun q => existsb (sub q) (made n E Ts (d + 1))) (made n E Ts d)) [1; 2] &&
    forallb (fun t => forallb (fun v => existsb (sub (rm v t)) (made n E Ts 3)) [n; n + 1]) (old_labels n) &&
    forallb (in_labels n) E && forallb (in_labels n) Ts && forallb (len_is 3) Ts && forallb (len_is 2) E)).
Definition check_recut_size (n : Z) : bool := oks (zget swap_mesh_counts n) (fun count => forallb (check_recut n) (zrange count)).
Lemma check_recut_all : forallb check_recut_size [3; 4; 5; 6; 7] = true.
Proof. vm_compute. reflexivity. Qed.

Lemma retag k n E Ts d : map (labels_of n) (key_origs k E Ts d) = map (labels_of n) (key_origs 0 E Ts d).
Proof.
  assert (forall f g : list Z -> list recut_origin, (forall x, map (labels_of n) (f x) = map (labels_of n) (g x)) -> forall l, map (labels_of n) (flat_map f l) = map (labels_of n) (flat_map g l)) as K by (intros f g H; induction l as [|x l IH]; [reflexivity|]; cbn [flat_map]; rewrite !map_app, H, IH; reflexivity).
  unfold key_origs. destruct (d =? 1); [apply K; reflexivity|]. destruct (d =? 2); [rewrite !map_app; f_equal; apply K; [reflexivity|]; intros [|? [|? [|? [|? ?]]]]; reflexivity|]. destruct (d =? 3); [|reflexivity]. apply K. intros [|? [|? [|? [|? ?]]]]; reflexivity.
Qed.

Record recut_ok (n : Z) (E Ts : list (list Z)) : Prop := {
  ro_row : forall d q, 1 <= d <= 3 -> In q (made n E Ts d) -> zlen q = d + 1 /\ NoDup q /\ (forall i, In i q -> 0 <= i < n + 2) /\ ~ (In n q /\ In (n + 1) q) /\ newish n E q = true;
  ro_part : forall d q s, 1 <= d <= 3 -> In q (made n E Ts d) -> incl s q -> newish n E s = true \/ oldish n s = true;
  ro_once : forall d, 1 <= d <= 3 -> NoDup (map (chars n) (made n E Ts d));
  ro_origs : forall k d, 1 <= d <= 3 -> map (chars n) (made n E Ts d) = map (labels_of n) (key_origs k E Ts d);
  ro_sides : forall d q y, 2 <= d <= 3 -> In q (made n E Ts d) -> In y q -> (exists s, In s (made n E Ts (d - 1)) /\ Permutation s (rm y q)) \/ oldish n (rm y q) = true;
  ro_up : forall d q, 1 <= d <= 2 -> In q (made n E Ts d) -> exists q', In q' (made n E Ts (d + 1)) /\ incl q q';
  ro_old : forall t v, In t (old_labels n) -> v = n \/ v = n + 1 -> exists q, In q (made n E Ts 3) /\ incl (rm v t) q;
  ro_En : forallb (in_labels n) E = true; ro_Tn : forallb (in_labels n) Ts = true;
  ro_T3 : forall t, In t Ts -> exists a b c, t = [a; b; c]; ro_E2 : forall e, In e E -> exists a b, e = [a; b] }.

Lemma newish_mono n E s q : incl s q -> newish n E s = true -> newish n E q = true.
Proof.
  intros I H. unfold newish in *. apply orb_true_iff in H as [H|H]; apply orb_true_iff; [left|right].
  - apply existsb_exists in H as (e & Ie & H). apply existsb_exists. exists e. split; [exact Ie|]. apply sub_ok. apply sub_ok in H. intros x Hx. apply I, H, Hx.
  - apply andb_true_iff in H as [H1 H]. apply andb_true_iff. split; [exact H1|]. apply sub_ok. apply sub_ok in H. intros x Hx. apply I, H, Hx.
Qed.
Lemma oldish_mono n s q : incl s q -> oldish n q = true -> oldish n s = true.
Proof. intros I H. unfold oldish in *. apply existsb_exists in H as (t & It & H). apply existsb_exists. exists t. split; [exact It|]. apply sub_ok. apply sub_ok in H. intros x Hx. apply H, I, Hx. Qed.
Lemma nodup_has q : nodup_by hasl q = true -> NoDup q.
Proof. apply nodup_by_ok. intros x l. apply has_ok. Qed.
Lemma recut_at n m count : 3 <= n <= 7 -> zget swap_mesh_counts n = Ok count -> 0 <= m < count -> exists E Ts, config_edges n m = Ok E /\ config_tris n m = Ok Ts /\ recut_ok n E Ts.
Proof.
  intros Hn Hc Hm. apply size_cases in Hn. pose proof check_recut_all as K. rewrite forallb_forall in K. apply K in Hn. unfold check_recut_size in Hn. apply oks_ok in Hn as (c & Ec & H). assert (c = count) as -> by congruence. rewrite forallb_forall in H. specialize (H m (proj2 (in_zrange _ _) Hm)).
  unfold check_recut in H. apply oks_ok in H as (E & EE & H). apply oks_ok in H as (Ts & ET & H). rewrite !andb_true_iff in H. destruct H as [[[[[[[H1 H2] H3] H4] H5] H6] H7] H8]. exists E, Ts. split; [exact EE|]. split; [exact ET|].
  assert (forall d, 1 <= d <= 3 -> check_dim n E Ts d = true) as C by (intros d Hd; rewrite forallb_forall in H1; apply H1; cbn; lia).
  assert (forall d q, 1 <= d <= 3 -> In q (made n E Ts d) -> zlen q = d + 1 /\ NoDup q /\ (forall i, In i q -> 0 <= i < n + 2) /\ ~ (In n q /\ In (n + 1) q) /\ newish n E q = true /\ forall s, In s (sublists q) -> newish n E s = true \/ oldish n s = true) as R.
  { intros d q Hd I. specialize (C d Hd). unfold check_dim in C. rewrite !andb_true_iff in C. destruct C as [[C _] _]. rewrite forallb_forall in C. specialize (C q I). rewrite !andb_true_iff in C. destruct C as [[[[[C1 C2] C3] C4] C5] C6]. split; [apply Z.eqb_eq, C1|]. split; [apply nodup_has, C2|]. split; [apply in_labels_ok, C3|]. split.
    - intros [A B]. apply has_ok in A, B. unfold both in C4. rewrite A, B in C4. discriminate.
    - split; [exact C5|]. intros s Is. rewrite forallb_forall in C6. apply orb_true_iff, C6, Is. }
  constructor.
  - intros d q Hd I. destruct (R d q Hd I) as (R1 & R2 & R3 & R4 & R5 & _). auto.
  - intros d q s Hd I Inc. destruct (R d q Hd I) as (_ & _ & _ & _ & _ & R6). destruct (R6 (filter (has s) q) (filter_sublist _ _)) as [J|J]; [left; eapply newish_mono; [|exact J]|right; eapply oldish_mono; [|exact J]]; intros x Hx.
    + apply filter_In in Hx as [_ Hx]. apply has_ok, Hx.
    + apply filter_In. split; [apply Inc, Hx|apply has_ok, Hx].
  - intros d Hd. specialize (C d Hd). unfold check_dim in C. rewrite !andb_true_iff in C. destruct C as [[_ C] _]. apply (nodup_by_ok meml meml_ok), C.
  - intros k d Hd. specialize (C d Hd). unfold check_dim in C. rewrite !andb_true_iff in C. destruct C as [_ C]. rewrite retag. apply eqll_ok, C.
  - intros d q y Hd I Iy. rewrite forallb_forall in H2. assert (check_sides n E Ts d = true) as S by (apply H2; cbn; lia). unfold check_sides in S. rewrite forallb_forall in S. specialize (S q I). rewrite forallb_forall in S. specialize (S y Iy). apply orb_true_iff in S as [S|S]; [left|right; exact S].
    apply existsb_exists in S as (s & Is & S). apply andb_true_iff in S as [S1 S2]. exists s. split; [exact Is|]. destruct (R d q ltac:(lia) I) as (L & N & _). destruct (R (d - 1) s ltac:(lia) Is) as (Ls & Ns & _). apply NoDup_Permutation_bis; [exact Ns|pose proof (rm_len y q N Iy); unfold zlen in *; lia|]. apply sub_ok, S2.
  - intros d q Hd I. rewrite forallb_forall in H3. assert (In d [1; 2]) as J by (cbn; lia). specialize (H3 d J). cbv beta in H3. rewrite forallb_forall in H3. specialize (H3 q I). apply existsb_exists in H3 as (q' & Iq & S). exists q'. split; [exact Iq|apply sub_ok, S].
  - intros t v It Hv. rewrite forallb_forall in H4. specialize (H4 t It). rewrite forallb_forall in H4. assert (In v [n; n + 1]) as J by (cbn; lia). specialize (H4 v J). apply existsb_exists in H4 as (q & Iq & S). exists q. split; [exact Iq|apply sub_ok, S].
  - exact H5.
  - exact H6.
  - intros t It. rewrite forallb_forall in H7. apply len3, H7, It.
  - intros e Ie. rewrite forallb_forall in H8. specialize (H8 e Ie). apply tri_of in H8. destruct e as [|a [|b [|c e]]]; unfold zlen in H8; cbn in H8; try lia. eauto.
Qed.
