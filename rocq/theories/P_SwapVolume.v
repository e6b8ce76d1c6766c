(** One edge swap: volumes and faces. *)
From Verif Require Import Prelude M_SwapTables M_Swap3d S_Swap3d P_SwapTables P_Loop.
From Coq Require Import Permutation Ring.
Local Open Scope Z_scope.

(** ** volumes *)
Section ring.
Context {R : Type} (rO rI : R) (radd rmul rsub : R -> R -> R) (ropp : R -> R).
Hypothesis Rth : ring_theory rO rI radd rmul rsub ropp eq.
Add Ring Rr : Rth.
Notation vol := (volume rO radd rmul rsub).
Notation tot := (sum_over rO radd).

Lemma vol_orient c t u : same_orientation t u -> vol c u = vol c t.
Proof.
  destruct t as [|p [|q [|r [|s [|? ?]]]]]; cbn [same_orientation]; try tauto. intros H. cbn [In] in H.
  repeat (destruct H as [<- | H]; [unfold volume, det3, sub3; destruct (c p) as [[? ?] ?], (c q) as [[? ?] ?], (c r) as [[? ?] ?], (c s) as [[? ?] ?]; ring|]). contradiction.
Qed.
Lemma vol_swap c e0 e1 x y : vol c [e0; e1; y; x] = ropp (vol c [e0; e1; x; y]).
Proof. unfold volume, det3, sub3. destruct (c e0) as [[? ?] ?], (c e1) as [[? ?] ?], (c x) as [[? ?] ?], (c y) as [[? ?] ?]. ring. Qed.
Lemma vol_split c e0 e1 x y z : radd (vol c [x; z; y; e0]) (vol c [x; y; z; e1]) = radd (radd (vol c [e0; e1; x; y]) (vol c [e0; e1; y; z])) (vol c [e0; e1; z; x]).
Proof. unfold volume, det3, sub3. destruct (c e0) as [[? ?] ?], (c e1) as [[? ?] ?], (c x) as [[? ?] ?], (c y) as [[? ?] ?], (c z) as [[? ?] ?]. ring. Qed.

Lemma total_app f l m : tot f (l ++ m) = radd (tot f l) (tot f m).
Proof. unfold sum_over. induction l as [|x l IH]; cbn [app fold_right]; [ring|]. rewrite IH. ring. Qed.
Lemma total_perm f l m : Permutation l m -> tot f l = tot f m.
Proof. induction 1 as [|x l m _ IH|x y l|l m k _ IH1 _ IH2]; unfold sum_over in *; cbn [fold_right]; [reflexivity | rewrite IH; reflexivity | ring | congruence]. Qed.

(** sums over directed edges *)
Definition sum_edges (F : Z -> Z -> R) (l : list (Z * Z)) : R := fold_right (fun p s => radd (F (fst p) (snd p)) s) rO l.
Lemma sum_edges_app F l m : sum_edges F (l ++ m) = radd (sum_edges F l) (sum_edges F m).
Proof. unfold sum_edges. induction l as [|x l IH]; cbn [app fold_right]; [ring|]. rewrite IH. ring. Qed.
Fixpoint remove1 (p : Z * Z) (l : list (Z * Z)) : option (list (Z * Z)) :=
  match l with
  | [] => None
  | q :: l => if eqp q p then Some l else match remove1 p l with Some l => Some (q :: l) | None => None end
  end.
Definition flip (p : Z * Z) : Z * Z := (snd p, fst p).
Fixpoint reduce (l : list (Z * Z)) (acc : list (Z * Z)) : list (Z * Z) :=
  match l with
  | [] => acc
  | p :: l => match remove1 (flip p) acc with Some acc => reduce l acc | None => reduce l (p :: acc) end
  end.
Lemma remove1_sum F p l : forall l', remove1 p l = Some l' -> sum_edges F l = radd (F (fst p) (snd p)) (sum_edges F l').
Proof.
  induction l as [|q l IH]; intros l' E; cbn [remove1] in E; [discriminate|]. destruct (eqp q p) eqn:Eq.
  - apply eqp_ok in Eq as ->. injection E as <-. reflexivity.
  - destruct (remove1 p l) as [m|]; [|discriminate]. injection E as <-. cbn [sum_edges fold_right]. specialize (IH m eq_refl). unfold sum_edges in *. rewrite IH. ring.
Qed.
Lemma reduce_sum F l : (forall x y, F y x = ropp (F x y)) -> forall acc, sum_edges F (reduce l acc) = radd (sum_edges F l) (sum_edges F acc).
Proof.
  intros HF. induction l as [|p l IH]; intros acc; cbn [reduce]; [cbn; ring|]. destruct (remove1 (flip p) acc) as [m|] eqn:E; rewrite IH.
  - rewrite (remove1_sum F _ _ _ E). cbn [sum_edges fold_right flip fst snd]. rewrite (HF (fst p) (snd p)). unfold sum_edges. ring.
  - cbn [sum_edges fold_right]. unfold sum_edges. ring.
Qed.
Lemma flip_sum F l : (forall x y, F y x = ropp (F x y)) -> sum_edges F (map flip l) = ropp (sum_edges F l).
Proof. intros HF. unfold sum_edges. induction l as [|p l IH]; cbn [map fold_right flip fst snd]; [ring|]. rewrite (HF (fst p) (snd p)). rewrite IH. ring. Qed.
Lemma reduce_equal F l m : (forall x y, F y x = ropp (F x y)) -> reduce (l ++ map flip m) [] = [] -> sum_edges F l = sum_edges F m.
Proof.
  intros HF E. pose proof (reduce_sum F (l ++ map flip m) HF []) as H. rewrite E, sum_edges_app, (flip_sum F m HF) in H. cbn [sum_edges fold_right] in H.
  assert (sum_edges F l = radd (radd (radd (sum_edges F l) (ropp (sum_edges F m))) rO) (sum_edges F m)) as -> by ring. rewrite <- H. ring.
Qed.

Definition tri_edges (t : list Z) : list (Z * Z) := match t with [a; b; c] => [(a, b); (b, c); (c, a)] | _ => [] end.
Lemma tets_sum c e0 e1 ts tets : (forall t, In t ts -> exists x y z, t = [x; y; z]) -> mapM (tri_tets [e0; e1]) ts = Ok tets ->
  tot (vol c) (concat tets) = sum_edges (fun x y => vol c [e0; e1; x; y]) (flat_map tri_edges ts).
Proof.
  intros Ht H. apply mapM_ok in H. induction H as [|t r ts tets H _ IH]; [reflexivity|]. cbn [concat flat_map]. rewrite total_app, sum_edges_app, IH by (intros; apply Ht; right; assumption). f_equal.
  destruct (Ht t) as (x & y & z & ->); [left; reflexivity|]. cbn in H. injection H as <-. cbn [sum_over fold_right]. cbn [tri_edges sum_edges fold_right fst snd].
  pose proof (vol_split c e0 e1 x y z) as V. 
  transitivity (radd (vol c [x; z; y; e0]) (vol c [x; y; z; e1])); [ring|]. rewrite V. ring.
Qed.
Lemma ring_sum c e0 e1 l tets : ring_of_tets e0 e1 l tets -> tot (vol c) tets = sum_edges (fun x y => vol c [e0; e1; x; y]) (cycle l).
Proof.
  intros (_ & pairs & HP & HF).
  assert (tot (vol c) tets = sum_edges (fun x y => vol c [e0; e1; x; y]) pairs) as ->.
  { clear HP. induction HF as [|t p tets pairs H _ IH]; [reflexivity|]. cbn [sum_over sum_edges fold_right]. rewrite (vol_orient c _ _ H). f_equal. exact IH. }
  clear HF. induction HP as [|x l' m _ IH|x y l'|l' m k _ IH1 _ IH2]; unfold sum_edges in *; cbn [fold_right]; [reflexivity | rewrite IH; reflexivity | ring | congruence].
Qed.
End ring.

(** ** labels: loop vertices 0 .. n-1, edge ends n and n+1 *)
Definition label_loop (n : Z) : loop := mk_loop n [n; n + 1] (zrange n).
Definition old_labels (n : Z) : list (list Z) := map (fun p => [n; n + 1; fst p; snd p]) (cycle (zrange n)).
Definition lab (e0 e1 : Z) (l : list Z) (i : Z) : Z := nth (Z.to_nat i) (l ++ [e0; e1]) 0.

Definition len_is (k : Z) (l : list Z) : bool := zlen l =? k.
Definition in_labels (n : Z) (l : list Z) : bool := forallb (fun i => (0 <=? i) && (i <? n)) l.
Definition perms3 (x y z : Z) := [[x; y; z]; [x; z; y]; [y; x; z]; [y; z; x]; [z; x; y]; [z; y; x]].
Definition lists3b (fs : list (list Z)) (x y z : Z) : bool := existsb (fun f => meml f (perms3 x y z)) fs.
Definition lists2b (es : list (list Z)) (x y : Z) : bool := meml [x; y] es || meml [y; x] es.
Definition shareb (ts : list (list Z)) (x y : Z) : bool := existsb (fun t => has t x && has t y) ts.
Definition distinct3 (x y z : Z) : bool := negb (x =? y) && negb (y =? z) && negb (x =? z).
Definition check_prods (n m : Z) : bool :=
  let N := n + 2 in
  oks (config_tris n m) (fun T => oks (config_edges n m) (fun E => oks (key_prods (label_loop n) m) (fun '(es, fs, rs) =>
    forallb (len_is 3) T && forallb (in_labels n) T && forallb (in_labels n) E && forallb (len_is 2) es && forallb (len_is 3) fs && forallb (len_is 4) rs &&
    forallb (in_labels n) es && forallb (in_labels N) fs && forallb (in_labels N) rs &&
    oks (zget nedges n) (fun ne => zlen es =? ne) && oks (zget swap_mesh_sizes n) (fun nt => (zlen rs =? 2 * nt) && oks (zget nedges n) (fun ne => zlen fs =? nt + 2 * ne)) &&
    eql (map fst (reduce (flat_map tri_edges T ++ map flip (cycle (zrange n))) [])) [] &&
    nodup_by meml fs && nodup_by meml es &&
    forallb (fun x => forallb (fun y => 
      (if x =? y then true else Bool.eqb (lists2b es x y) (shareb rs x y && negb (shareb (old_labels n) x y))) &&
      forallb (fun z => if distinct3 x y z then
        Bool.eqb (users rs x y z =? 1) (users (old_labels n) x y z =? 1) && Bool.eqb (lists3b fs x y z) (users rs x y z =? 2) else true) (zrange N)) (zrange N)) (zrange N) &&
    negb (shareb rs n (n + 1))))).
Definition check_prods_size (n : Z) : bool := oks (zget swap_mesh_counts n) (fun count => forallb (check_prods n) (zrange count)).
Lemma check_prods_all : forallb check_prods_size [3; 4; 5; 6; 7] = true.
Proof. vm_compute. reflexivity. Qed.
