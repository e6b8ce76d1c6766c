From Verif Require Import Prelude M_Template S_Template.
Local Open Scope Z_scope.

(** ** deciding finite statements *)
Definition inb (x : Z) (l : list Z) : bool := existsb (Z.eqb x) l.
Lemma inb_spec x l : inb x l = true <-> In x l.
Proof. unfold inb. rewrite existsb_exists. split; [intros (y & H & E); apply Z.eqb_eq in E; subst; exact H|intros H; exists x; split; [exact H|apply Z.eqb_refl]]. Qed.
Definition same_setb (l m : list Z) : bool := forallb (fun x => inb x m) l && forallb (fun x => inb x l) m.
Lemma same_setb_spec l m : same_setb l m = true <-> same_set l m.
Proof.
  unfold same_setb, same_set. rewrite andb_true_iff, !forallb_forall. split.
  - intros [H1 H2] x. split; intros H; [apply inb_spec, H1, H|apply inb_spec, H2, H].
  - intros H. split; intros x Hx; apply inb_spec, H, Hx.
Qed.
Fixpoint nodupb (l : list Z) : bool := match l with [] => true | x :: l => negb (inb x l) && nodupb l end.
Lemma nodupb_spec l : nodupb l = true -> NoDup l.
Proof.
  induction l as [|x l IH]; cbn; intros H; constructor; apply andb_true_iff in H as [H1 H2]; [|auto].
  intros Hx. apply inb_spec in Hx. rewrite Hx in H1. discriminate.
Qed.
Definition families := [OMEGA_H_SIMPLEX; OMEGA_H_HYPERCUBE].
Lemma in_families f : In f families.
Proof. destruct f; cbn; tauto. Qed.
Lemma sweep (P : Z -> bool) n : forallb P (zrange n) = true -> forall i, 0 <= i < n -> P i = true.
Proof. intros H i Hi. rewrite forallb_forall in H. apply H, in_zrange, Hi. Qed.
Lemma sweep2 (P : Z -> bool) a n : forallb P (zfromto a n) = true -> forall i, a <= i < n -> P i = true.
Proof. intros H i Hi. rewrite forallb_forall in H. apply H, in_zfromto, Hi. Qed.

(** all (family, high, low, w) the library knows *)
Definition each_side (P : family -> Z -> Z -> Z -> bool) : bool :=
  forallb (fun f => forallb (fun high => forallb (fun low => forallb (P f high low) (zrange (element_degree f high low))) (zrange high)) (zrange 4)) families.
Lemma each_side_spec P : each_side P = true -> forall f high low w, 0 <= low < high -> high <= 3 -> 0 <= w < element_degree f high low -> P f high low w = true.
Proof.
  intros H f high low w Hl Hh Hw. unfold each_side in H. rewrite forallb_forall in H. specialize (H f (in_families f)). cbv beta in H.
  pose proof (sweep _ _ H high ltac:(lia)) as H1. cbv beta in H1. pose proof (sweep _ _ H1 low ltac:(lia)) as H2. cbv beta in H2. exact (sweep _ _ H2 w Hw).
Qed.
(** all (family, high, mid, low, m, l) *)
Definition each_sub (P : family -> Z -> Z -> Z -> Z -> Z -> bool) : bool :=
  forallb (fun f => forallb (fun high => forallb (fun mid => forallb (fun low => forallb (fun m => forallb (P f high mid low m)
    (zrange (element_degree f mid low))) (zrange (element_degree f high mid))) (zrange mid)) (zrange high)) (zrange 4)) families.
Lemma each_sub_spec P : each_sub P = true -> forall f high mid low m l, 0 <= low < mid -> mid < high <= 3 ->
  0 <= m < element_degree f high mid -> 0 <= l < element_degree f mid low -> P f high mid low m l = true.
Proof.
  intros H f high mid low m l Hl Hh Hm Hlw. unfold each_sub in H. rewrite forallb_forall in H. specialize (H f (in_families f)). cbv beta in H.
  pose proof (sweep _ _ H high ltac:(lia)) as H1. cbv beta in H1. pose proof (sweep _ _ H1 mid ltac:(lia)) as H2. cbv beta in H2.
  pose proof (sweep _ _ H2 low ltac:(lia)) as H3. cbv beta in H3. pose proof (sweep _ _ H3 m Hm) as H4. exact (sweep _ _ H4 l Hlw).
Qed.

Lemma down_range f high low w v : 0 <= low < high -> high <= 3 -> 0 <= w < element_degree f high low -> 0 <= v < nverts f low ->
  0 <= element_down_template f high low w v < element_degree f high 0.
Proof.
  intros Hl Hh Hw Hv.
  assert (each_side (fun f high low w => forallb (fun v => (0 <=? element_down_template f high low w v) && (element_down_template f high low w v <? element_degree f high 0)) (zrange (nverts f low))) = true) as H by (vm_compute; reflexivity).
  pose proof (each_side_spec _ H f high low w Hl Hh Hw) as H1. cbv beta in H1. pose proof (sweep _ _ H1 v Hv) as H2. cbv beta in H2. lia.
Qed.

Lemma side_nodup f high low w : 0 <= low < high -> high <= 3 -> 0 <= w < element_degree f high low -> NoDup (side_verts f high low w).
Proof.
  intros Hl Hh Hw. apply nodupb_spec.
  apply (each_side_spec (fun f high low w => nodupb (side_verts f high low w))); try assumption. vm_compute; reflexivity.
Qed.

Lemma sides_distinct f high low w w' : 0 <= low < high -> high <= 3 -> 0 <= w < element_degree f high low -> 0 <= w' < element_degree f high low ->
  same_set (side_verts f high low w) (side_verts f high low w') -> w = w'.
Proof.
  intros Hl Hh Hw Hw' HS.
  assert (each_side (fun f high low w => forallb (fun w' => negb (same_setb (side_verts f high low w) (side_verts f high low w')) || (w =? w')) (zrange (element_degree f high low))) = true) as H by (vm_compute; reflexivity).
  pose proof (each_side_spec _ H f high low w Hl Hh Hw) as H1. cbv beta in H1. pose proof (sweep _ _ H1 w' Hw') as H2. cbv beta in H2.
  apply same_setb_spec in HS. rewrite HS in H2. cbn in H2. lia.
Qed.

Lemma side_of_side f high mid low m l : 0 <= low < mid -> mid < high <= 3 -> 0 <= m < element_degree f high mid -> 0 <= l < element_degree f mid low ->
  exists w, 0 <= w < element_degree f high low /\ same_set (sub_side_verts f high mid low m l) (side_verts f high low w).
Proof.
  intros Hl Hh Hm Hlw.
  assert (each_sub (fun f high mid low m l => existsb (fun w => same_setb (sub_side_verts f high mid low m l) (side_verts f high low w)) (zrange (element_degree f high low))) = true) as H by (vm_compute; reflexivity).
  pose proof (each_sub_spec _ H f high mid low m l Hl Hh Hm Hlw) as H1. cbv beta in H1. apply existsb_exists in H1 as (w & Hw & E).
  exists w. split; [apply in_zrange, Hw|apply same_setb_spec, E].
Qed.

Definition leqb (l m : list Z) : bool := (length l =? length m)%nat && forallb (fun p => fst p =? snd p) (combine l m).
Lemma leqb_spec l : forall m, leqb l m = true -> l = m.
Proof.
  induction l as [|x l IH]; intros [|y m] H; try reflexivity; try discriminate.
  unfold leqb in H. cbn in H. apply andb_true_iff in H as [H1 H2]. apply andb_true_iff in H2 as [H2 H3].
  apply Z.eqb_eq in H2. cbn in H2. subst. f_equal. apply IH. unfold leqb. rewrite H1, H3. reflexivity.
Qed.

Lemma up_sound f high low w u m l fl : 0 <= low -> low + 2 <= high <= 3 -> 0 <= w < element_degree f high low -> 0 <= u < high - low ->
  element_up_template f high low w u = (m, l, fl) ->
  0 <= m < element_degree f high (low + 1) /\ 0 <= l < element_degree f (low + 1) low /\
  sub_side_verts f high (low + 1) low m l = (if fl then rev (side_verts f high low w) else side_verts f high low w).
Proof.
  intros Hl Hh Hw Hu E.
  assert (each_side (fun f high low w => negb (low + 2 <=? high) || forallb (fun u => let '(m, l, fl) := element_up_template f high low w u in
     (0 <=? m) && (m <? element_degree f high (low + 1)) && (0 <=? l) && (l <? element_degree f (low + 1) low) &&
     leqb (sub_side_verts f high (low + 1) low m l) (if fl then rev (side_verts f high low w) else side_verts f high low w)) (zrange (high - low))) = true) as H by (vm_compute; reflexivity).
  pose proof (each_side_spec _ H f high low w ltac:(lia) ltac:(lia) Hw) as H1. cbv beta in H1.
  rewrite (proj2 (Z.leb_le _ _)) in H1 by lia. cbn [negb orb] in H1. pose proof (sweep _ _ H1 u Hu) as H2. cbv beta in H2. rewrite E in H2.
  rewrite !andb_true_iff in H2. destruct H2 as ((((H2 & H3) & H4) & H5) & H6). apply leqb_spec in H6. split; [lia|]. split; [lia|exact H6].
Qed.

Lemma up_complete f high low w m l : 0 <= low -> low + 2 <= high <= 3 -> 0 <= w < element_degree f high low ->
  0 <= m < element_degree f high (low + 1) -> 0 <= l < element_degree f (low + 1) low ->
  same_set (sub_side_verts f high (low + 1) low m l) (side_verts f high low w) ->
  exists u fl, 0 <= u < high - low /\ element_up_template f high low w u = (m, l, fl) /\
  forall u' fl', 0 <= u' < high - low -> element_up_template f high low w u' = (m, l, fl') -> u' = u.
Proof.
  intros Hl Hh Hw Hm Hlw HS.
  set (is := fun f high low w m l u => let '(m', l', _) := element_up_template f high low w u in (m =? m') && (l =? l')).
  assert (each_sub (fun f high mid low m l => negb (mid =? low + 1) || forallb (fun w => negb (same_setb (sub_side_verts f high (low + 1) low m l) (side_verts f high low w)) ||
      existsb (fun u => is f high low w m l u && forallb (fun u' => negb (is f high low w m l u') || (u' =? u)) (zrange (high - low))) (zrange (high - low))) (zrange (element_degree f high low))) = true) as H by (vm_compute; reflexivity).
  pose proof (each_sub_spec _ H f high (low + 1) low m l ltac:(lia) ltac:(lia) Hm Hlw) as H1. cbv beta in H1. rewrite Z.eqb_refl in H1. cbn [negb orb] in H1.
  pose proof (sweep _ _ H1 w Hw) as H2. cbv beta in H2. apply same_setb_spec in HS. rewrite HS in H2. cbn [negb orb] in H2.
  apply existsb_exists in H2 as (u & Hu & H2). apply andb_true_iff in H2 as [H2 H3]. apply in_zrange in Hu.
  unfold is in H2 at 1. destruct (element_up_template f high low w u) as [[m' l'] fl] eqn:E. apply andb_true_iff in H2 as [E1 E2].
  apply Z.eqb_eq in E1, E2. subst m' l'. exists u, fl. split; [exact Hu|]. split; [exact E|].
  intros u' fl' Hu' E'. pose proof (sweep _ _ H3 u' Hu') as H4. cbv beta in H4. unfold is in H4. rewrite E', !Z.eqb_refl in H4. cbn in H4. lia.
Qed.

Lemma edge_between_two_faces f w : 0 <= w < element_degree f 3 1 ->
  exists m l m' l' b, element_up_template f 3 1 w 0 = (m, l, b) /\ element_up_template f 3 1 w 1 = (m', l', negb b) /\ m <> m'.
Proof.
  intros Hw.
  assert (forallb (fun f => forallb (fun w => let '(m, _, b) := element_up_template f 3 1 w 0 in let '(m', _, b') := element_up_template f 3 1 w 1 in negb (m =? m') && Bool.eqb b' (negb b)) (zrange (element_degree f 3 1))) families = true) as H by (vm_compute; reflexivity).
  rewrite forallb_forall in H. specialize (H f (in_families f)). pose proof (sweep _ _ H w Hw) as H1. cbv beta in H1.
  destruct (element_up_template f 3 1 w 0) as [[m l] b], (element_up_template f 3 1 w 1) as [[m' l'] b']. apply andb_true_iff in H1 as [H1 H2].
  apply Bool.eqb_prop in H2. exists m, l, m', l', b. subst b'. split; [reflexivity|]. split; [reflexivity|]. lia.
Qed.

Lemma opposite_complement high low w : 0 <= low < high -> high <= 3 -> 0 <= w < simplex_degree high low ->
  0 <= simplex_opposite_template high low w < simplex_degree high (high - 1 - low) /\
  simplex_opposite_template high (high - 1 - low) (simplex_opposite_template high low w) = w /\
  forall v, 0 <= v <= high -> (In v (side_verts OMEGA_H_SIMPLEX high low w) <->
    ~ In v (side_verts OMEGA_H_SIMPLEX high (high - 1 - low) (simplex_opposite_template high low w))).
Proof.
  intros Hl Hh Hw.
  assert (forallb (fun high => forallb (fun low => forallb (fun w => let o := simplex_opposite_template high low w in (0 <=? o) && (o <? simplex_degree high (high - 1 - low)) &&
     (simplex_opposite_template high (high - 1 - low) o =? w) && forallb (fun v => Bool.eqb (inb v (side_verts OMEGA_H_SIMPLEX high low w)) (negb (inb v (side_verts OMEGA_H_SIMPLEX high (high - 1 - low) o)))) (zrange (high + 1)))
     (zrange (simplex_degree high low))) (zrange high)) (zrange 4) = true) as H by (vm_compute; reflexivity).
  pose proof (sweep _ _ H high ltac:(lia)) as H1. cbv beta in H1. pose proof (sweep _ _ H1 low ltac:(lia)) as H2. cbv beta in H2. pose proof (sweep _ _ H2 w Hw) as H3. cbv beta zeta in H3.
  rewrite !andb_true_iff in H3. destruct H3 as (((H3 & H4) & H5) & H6). split; [lia|]. split; [lia|]. intros v Hv.
  pose proof (sweep _ _ H6 v ltac:(lia)) as H7. cbv beta in H7. apply Bool.eqb_prop in H7. rewrite <- !inb_spec. rewrite H7.
  destruct (inb v (side_verts OMEGA_H_SIMPLEX high (high - 1 - low) _)); cbn; split; congruence.
Qed.

(** ** refinement of a hypercube *)
Definition eq3 (a b : Z * Z * Z) : bool := let '(x, y, z) := a in let '(u, v, w) := b in (x =? u) && (y =? v) && (z =? w).
Lemma eq3_spec a b : eq3 a b = true -> a = b.
Proof. destruct a as [[x y] z], b as [[u v] w]. cbn. intros H. rewrite !andb_true_iff in H. f_equal; [f_equal|]; lia. Qed.
Definition half3 (a : Z * Z * Z) : Z * Z * Z := let '(x, y, z) := a in (x / 2, y / 2, z / 2).
Definition centreb (high d w : Z) (p : Z * Z * Z) : bool :=
  let vs := closure_verts high d w in negb (length vs =? 0)%nat && eq3 (scale3 (zlen vs) p) (sum3 (map hyper_coord vs)).
Lemma centreb_spec high d w p : centreb high d w p = true -> is_centre high d w p.
Proof.
  unfold centreb, is_centre. intros H. apply andb_true_iff in H as [H1 H2]. split; [|apply eq3_spec, H2].
  intros E. rewrite E in H1. discriminate.
Qed.

Lemma split_child d c j dd w : 1 <= d <= 3 -> 0 <= c < hypercube_degree d 0 -> 0 <= j < hypercube_degree d 0 ->
  hypercube_split_template d d c j = (dd, w) ->
  exists p, is_centre d dd w p /\ scale3 2 p = add3 (hyper_coord c) (hyper_coord j).
Proof.
  intros Hd Hc Hj E.
  assert (forallb (fun d => forallb (fun c => forallb (fun j => let '(dd, w) := hypercube_split_template d d c j in let s := add3 (hyper_coord c) (hyper_coord j) in
     centreb d dd w (half3 s) && eq3 (scale3 2 (half3 s)) s) (zrange (hypercube_degree d 0))) (zrange (hypercube_degree d 0))) (zfromto 1 4) = true) as H by (vm_compute; reflexivity).
  pose proof (sweep2 _ _ _ H d ltac:(lia)) as H1. cbv beta in H1. pose proof (sweep _ _ H1 c Hc) as H2. cbv beta in H2. pose proof (sweep _ _ H2 j Hj) as H3. cbv beta in H3.
  rewrite E in H3. apply andb_true_iff in H3 as [H3 H4]. eexists. split; [apply centreb_spec, H3|apply eq3_spec, H4].
Qed.

(** interior child quadrilaterals are parallelograms that join the centre of the parent and the centre of the dual edge *)
Lemma split_interior d cd c : 1 <= cd < d -> d <= 3 -> 0 <= c < hypercube_split_degree d cd ->
  (exists j, 0 <= j < hypercube_degree cd 0 /\ hypercube_split_template d cd c j = (d, 0)) /\
  (exists j, 0 <= j < hypercube_degree cd 0 /\ hypercube_split_template d cd c j = (d - cd, c)).
Proof.
  intros Hcd Hd Hc.
  set (has := fun d cd c x y => existsb (fun j => let '(a, b) := hypercube_split_template d cd c j in (a =? x) && (b =? y)) (zrange (hypercube_degree cd 0))).
  assert (forallb (fun d => forallb (fun cd => forallb (fun c => has d cd c d 0 && has d cd c (d - cd) c) (zrange (hypercube_split_degree d cd))) (zfromto 1 d)) (zfromto 1 4) = true) as H by (vm_compute; reflexivity).
  pose proof (sweep2 _ _ _ H d ltac:(lia)) as H1. cbv beta in H1. pose proof (sweep2 _ _ _ H1 cd ltac:(lia)) as H2. cbv beta in H2. pose proof (sweep _ _ H2 c Hc) as H3. cbv beta in H3.
  apply andb_true_iff in H3 as [H3 H4].
  assert (forall x y, has d cd c x y = true -> exists j, 0 <= j < hypercube_degree cd 0 /\ hypercube_split_template d cd c j = (x, y)) as K.
  { intros x y Hh. unfold has in Hh. apply existsb_exists in Hh as (j & Hj & E). exists j. split; [apply in_zrange, Hj|].
    destruct (hypercube_split_template d cd c j) as [a b]. apply andb_true_iff in E as [E1 E2]. f_equal; lia. }
  split; apply K; assumption.
Qed.
