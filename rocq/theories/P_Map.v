From Verif Require Import Prelude M_Array M_Par S_Par P_Par M_Scan S_Scan P_Scan M_Sort M_Map S_Map P_Array.
Local Open Scope Z_scope.

Lemma foldM_zip {S} (f : S -> Z -> Z -> res S) (l pre : list Z) : forall s,
  foldM (fun d a => b <- zget (pre ++ l) a ;; f d a b) (map (fun k => zlen pre + k) (zrange (zlen l))) s =
  foldM (fun d p => f d (fst p) (snd p)) (combine (map (fun k => zlen pre + k) (zrange (zlen l))) l) s.
Proof.
  revert pre. induction l as [|x l IH]; intros pre s; [reflexivity|].
  rewrite zrange_split_0 by (rewrite zlen_cons; pose proof (zlen_nonneg l); lia).
  rewrite zlen_cons. replace (zlen l + 1 - 1) with (zlen l) by lia.
  cbn [map combine foldM fst snd]. rewrite Z.add_0_r.
  rewrite zget_app_r by lia. rewrite Z.sub_diag. cbn [zget Z.ltb Z.compare nth_error Z.to_nat]. change (zget (x :: l) 0) with (Ok x). cbn [bind].
  destruct (f s (zlen pre) x) as [s'| |]; cbn [bind]; auto.
  specialize (IH (pre ++ [x]) s'). rewrite zlen_app in IH. change (zlen [x]) with 1 in IH.
  rewrite <- app_assoc in IH. cbn [app] in IH. rewrite map_map.
  replace (map (fun k => zlen pre + (k + 1)) (zrange (zlen l))) with (map (fun k => zlen pre + 1 + k) (zrange (zlen l)))
    by (apply map_ext; intros; lia). exact IH.
Qed.

Lemma forM_zip {S} (f : S -> Z -> Z -> res S) (l : list Z) s :
  forM (zlen l) s (fun d a => b <- zget l a ;; f d a b) =
  foldM (fun d p => f d (fst p) (snd p)) (combine (zrange (zlen l)) l) s.
Proof.
  pose proof (foldM_zip f l [] s) as H. cbn [app] in H.
  replace (map (fun k => zlen [] + k) (zrange (zlen l))) with (zrange (zlen l)) in H; [exact H|].
  rewrite <- (map_id (zrange (zlen l))) at 1. apply map_ext. intros; rewrite zlen_nil; lia.
Qed.

Lemma combine_fst {A B} (l : list A) (m : list B) : length l = length m -> map fst (combine l m) = l.
Proof. revert m; induction l as [|x l IH]; intros [|y m] H; cbn; try discriminate; [reflexivity|]. f_equal; apply IH; cbn in H; lia. Qed.
Lemma combine_snd {A B} (l : list A) (m : list B) : length l = length m -> map snd (combine l m) = m.
Proof. revert m; induction l as [|x l IH]; intros [|y m] H; cbn; try discriminate; [reflexivity|]. f_equal; apply IH; cbn in H; lia. Qed.
Lemma zrange_len_eq {A} (l : list A) : length (zrange (zlen l)) = length l.
Proof. rewrite zrange_length. unfold zlen; lia. Qed.

Lemma in_zip (l : list Z) a b : In (a, b) (combine (zrange (zlen l)) l) <-> zget l a = Ok b.
Proof.
  split.
  - intros H. apply In_nth_error in H as (n & H).
    assert (zget (combine (zrange (zlen l)) l) (Z.of_nat n) = Ok (a, b)) as Hz by (apply zget_nat; exact H).
    rewrite zget_combine in Hz by (apply zlen_zrange, zlen_nonneg).
    apply bind_ok in Hz as (a' & Ha & Hz). apply bind_ok in Hz as (b' & Hb & Hz). injection Hz as -> ->.
    pose proof (zget_bounds _ _ _ Hb). rewrite zget_zrange in Ha by lia. injection Ha as <-. exact Hb.
  - intros H. pose proof (zget_bounds _ _ _ H). apply zget_In with a.
    rewrite zget_combine by (apply zlen_zrange, zlen_nonneg). rewrite zget_zrange by lia. cbn. rewrite H. reflexivity.
Qed.

Lemma is_perm_NoDup p : is_perm p -> NoDup p.
Proof. intros H. eapply Permutation_NoDup; [apply Permutation_sym, H|apply zrange_NoDup]. Qed.
Lemma is_perm_in p b : is_perm p -> In b p <-> 0 <= b < zlen p.
Proof.
  intros H. rewrite <- in_zrange. split; intros Hi; [|apply Permutation_sym in H]; eapply Permutation_in; eauto.
Qed.
Lemma NoDup_zget {A} (l : list A) i j x : NoDup l -> zget l i = Ok x -> zget l j = Ok x -> i = j.
Proof.
  intros H Hi Hj. pose proof (zget_bounds _ _ _ Hi) as Bi.
  apply zget_ok in Hi as [Hi0 Hi]. apply zget_ok in Hj as [Hj0 Hj].
  assert (Z.to_nat i = Z.to_nat j); [|lia]. eapply (proj1 (NoDup_nth_error l) H); [unfold zlen in Bi; lia|congruence].
Qed.
Lemma In_zget {A} (l : list A) x : In x l -> exists i, zget l i = Ok x.
Proof. intros H; apply In_nth_error in H as (n & H); exists (Z.of_nat n); apply zget_nat; exact H. Qed.

Lemma NoDup_zget_inv {A} (l : list A) : (forall i j x, zget l i = Ok x -> zget l j = Ok x -> i = j) -> NoDup l.
Proof.
  intros H. apply NoDup_nth_error. intros i j Hi E. destruct (nth_error l i) as [x|] eqn:Ei.
  - apply Nat2Z.inj. apply (H _ _ x); apply zget_nat; congruence.
  - apply nth_error_None in Ei. lia.
Qed.

Lemma is_perm_intro p : NoDup p -> (forall b, In b p -> 0 <= b < zlen p) -> is_perm p.
Proof.
  intros Hn Hr. apply NoDup_Permutation_bis; [exact Hn|rewrite zrange_len_eq; lia|].
  intros b Hb. apply in_zrange, Hr, Hb.
Qed.

Lemma div_block width k : 0 < width -> 0 <= k -> exists a j, 0 <= a /\ 0 <= j < width /\ k = a * width + j.
Proof.
  intros Hw Hk. exists (k / width), (k mod width).
  pose proof (Z.div_mod k width ltac:(lia)). pose proof (Z.mod_pos_bound k width Hw).
  pose proof (Z.div_pos k width Hk Hw). lia.
Qed.

Section copies.
Context {A : Type}.
Implicit Types (d : list (option A)) (b_data a_data : list A).

Lemma freeze_blocks width n d : 0 <= n -> 0 <= width -> zlen d = n * width ->
  (forall a j, 0 <= a < n -> 0 <= j < width -> exists x, zget d (a * width + j) = Ok (Some x)) ->
  exists l, freeze d = Ok l /\ zlen l = n * width /\ forall k x, zget d k = Ok (Some x) <-> zget l k = Ok x.
Proof.
  intros Hn Hw Hl H. destruct (freeze_total d) as (l & E & L & G); [|exists l; rewrite <- Hl; auto].
  intros k Hk. destruct (Z.eq_dec width 0) as [->|Hw0]; [lia|].
  destruct (div_block width k) as (a & j & Ha & Hj & ->); [lia|lia|]. apply H; [nia|exact Hj].
Qed.

Lemma unmap_spec a2b b_data width : 0 <= width -> maps_into a2b b_data width ->
  exists r, unmap a2b b_data width = Ok r /\ zlen r = zlen a2b * width /\
  forall a b j, zget a2b a = Ok b -> 0 <= j < width -> zget r (a * width + j) = zget b_data (b * width + j).
Proof.
  intros Hw Hm. unfold unmap. pose proof (zlen_nonneg a2b) as Hn.
  rewrite blank_ok by nia. cbn [bind]. rewrite (forM_zip (fun d a b => copy_block width b_data b d a)).
  set (dst := repeat None _).
  assert (zlen dst = zlen a2b * width) as Hd by (unfold dst; rewrite zlen_repeat; nia).
  set (zz := combine (zrange (zlen a2b)) a2b).
  destruct (scatter_ok width b_data (map (fun p => (snd p, fst p)) zz) dst Hw) as (d & E & L & G & _).
  - rewrite map_map. cbn [snd]. unfold zz. rewrite combine_fst by apply zrange_len_eq. apply zrange_NoDup.
  - intros b a H. apply in_map_iff in H as ([a' b'] & Heq & H). cbn in Heq. injection Heq as -> ->.
    apply in_zip in H. destruct (Hm b (zget_In _ _ _ H)). pose proof (zget_bounds _ _ _ H). nia.
  - unfold scatter in E. rewrite foldM_map in E. cbn [fst snd] in E. rewrite E. cbn [bind].
    assert (forall a b j, zget a2b a = Ok b -> 0 <= j < width -> exists x,
       zget b_data (b * width + j) = Ok x /\ zget d (a * width + j) = Ok (Some x)) as G'.
    { intros a b j Hab Hj. apply G; [|exact Hj]. apply in_map_iff. exists (a, b). split; [reflexivity|]. apply in_zip, Hab. }
    destruct (freeze_blocks width (zlen a2b) d) as (r & Er & Lr & Gr); auto; [congruence| |].
    { intros a j Ha Hj. destruct (zget_in_range a2b a Ha) as (b & Hb). destruct (G' a b j Hb Hj) as (x & _ & Hx). eauto. }
    exists r. split; [exact Er|]. split; [exact Lr|]. intros a b j Hab Hj.
    destruct (G' a b j Hab Hj) as (x & Hx & Hy). apply Gr in Hy. congruence.
Qed.

Lemma unmap_range_spec begin end_ b_data width : 0 <= width -> 0 <= begin <= end_ -> end_ * width <= zlen b_data ->
  exists r, unmap_range begin end_ b_data width = Ok r /\ zlen r = (end_ - begin) * width /\
  forall k, 0 <= k < (end_ - begin) * width -> zget r k = zget b_data (begin * width + k).
Proof.
  intros Hw Hr Hl. unfold unmap_range, check. destruct (Z.leb_spec begin end_); [|lia]. cbn [bind].
  rewrite blank_ok by nia. cbn [bind]. set (dst := repeat None _).
  assert (zlen dst = (end_ - begin) * width) as Hd by (unfold dst; rewrite zlen_repeat; nia).
  destruct (scatter_ok width b_data (map (fun a => (a + begin, a)) (zrange (end_ - begin))) dst Hw) as (d & E & L & G & _).
  - rewrite map_map. cbn [snd]. rewrite map_id. apply zrange_NoDup.
  - intros b a Hi. apply in_map_iff in Hi as (a' & Heq & Hi). injection Heq as <- <-. apply in_zrange in Hi. nia.
  - unfold scatter in E. rewrite foldM_map in E. cbn [fst snd] in E. unfold forM. rewrite E. cbn [bind].
    assert (forall a j, 0 <= a < end_ - begin -> 0 <= j < width -> exists x,
       zget b_data ((a + begin) * width + j) = Ok x /\ zget d (a * width + j) = Ok (Some x)) as G'.
    { intros a j Ha Hj. apply G; [|exact Hj]. apply in_map_iff. exists a. split; [reflexivity|]. apply in_zrange, Ha. }
    destruct (freeze_blocks width (end_ - begin) d) as (r & Er & Lr & Gr); auto; [lia|congruence| |].
    { intros a j Ha Hj. destruct (G' a j Ha Hj) as (x & _ & Hx). eauto. }
    exists r. split; [exact Er|]. split; [exact Lr|]. intros k Hk.
    destruct (Z.eq_dec width 0) as [->|Hw0]; [lia|].
    destruct (div_block width k) as (a & j & Ha & Hj & ->); [lia|lia|].
    destruct (G' a j) as (x & Hx & Hy); [nia|exact Hj|]. apply Gr in Hy. rewrite Hy, <- Hx. f_equal. ring.
Qed.

Lemma map_into_spec a_data a2b dst width : 0 <= width ->
  zlen a_data = zlen a2b * width -> NoDup a2b -> maps_into a2b dst width ->
  exists d, map_into a_data a2b dst width = Ok d /\ zlen d = zlen dst /\
  (forall a b j, zget a2b a = Ok b -> 0 <= j < width ->
     exists x, zget a_data (a * width + j) = Ok x /\ zget d (b * width + j) = Ok (Some x)) /\
  (forall b j, ~ In b a2b -> 0 <= j < width -> zget d (b * width + j) = zget dst (b * width + j)).
Proof.
  intros Hw Hl Hn Hm. unfold map_into, check. rewrite (proj2 (Z.eqb_eq _ _) Hl). cbn [bind].
  rewrite (forM_zip (fun d a b => copy_block width a_data a d b)).
  destruct (scatter_ok width a_data (combine (zrange (zlen a2b)) a2b) dst Hw) as (d & E & L & G & F).
  - rewrite combine_snd by apply zrange_len_eq. exact Hn.
  - intros a b H. apply in_zip in H. destruct (Hm b (zget_In _ _ _ H)). pose proof (zget_bounds _ _ _ H). nia.
  - exists d. split; [exact E|]. split; [exact L|]. split.
    + intros a b j Hab Hj. apply G; [|exact Hj]. apply in_zip, Hab.
    + intros b j Hb Hj. apply F; [|exact Hj]. rewrite combine_snd by apply zrange_len_eq. exact Hb.
Qed.

Lemma map_into_mismatch a_data a2b dst width : zlen a_data <> zlen a2b * width ->
  map_into a_data a2b dst width = Abort.
Proof. intros H. unfold map_into, check. rewrite (proj2 (Z.eqb_neq _ _) H). reflexivity. Qed.

Lemma map_onto_spec a_data a2b nb init width : 0 <= width -> 0 <= nb ->
  zlen a_data = zlen a2b * width -> NoDup a2b -> (forall b, In b a2b -> 0 <= b < nb) ->
  exists r, map_onto a_data a2b nb init width = Ok r /\ zlen r = nb * width /\
  (forall a b j, zget a2b a = Ok b -> 0 <= j < width -> zget r (b * width + j) = zget a_data (a * width + j)) /\
  (forall b j, 0 <= b < nb -> ~ In b a2b -> 0 <= j < width -> zget r (b * width + j) = Ok init).
Proof.
  intros Hw Hnb Hl Hn Hr. unfold map_onto. rewrite filled_ok by nia. cbn [bind].
  set (dst := repeat _ _). assert (zlen dst = nb * width) as Hd by (unfold dst; rewrite zlen_repeat; nia).
  assert (zlen a2b <= nb) as Hle.
  { assert (length a2b <= length (zrange nb))%nat; [|rewrite zrange_length in *; unfold zlen; lia].
    apply NoDup_incl_length; [exact Hn|]. intros b Hb. apply in_zrange, Hr, Hb. }
  unfold check. destruct (zlen dst >=? zlen a_data) eqn:Eg; [|nia]. cbn [bind].
  destruct (map_into_spec a_data a2b dst width Hw Hl Hn) as (d & E & L & G & F).
  { intros b Hb. specialize (Hr b Hb). nia. }
  rewrite E. cbn [bind].
  assert (forall b j, 0 <= b < nb -> ~ In b a2b -> 0 <= j < width -> zget d (b * width + j) = Ok (Some init)) as F'.
  { intros b j Hb Hni Hj. rewrite F by auto. unfold dst. apply zget_repeat. nia. }
  destruct (freeze_blocks width nb d) as (r & Er & Lr & Gr); auto; [congruence| |].
  { intros b j Hb Hj. destruct (in_dec Z.eq_dec b a2b) as [Hi|Hi].
    - apply In_zget in Hi as (a & Ha). destruct (G a b j Ha Hj) as (x & _ & Hx). eauto.
    - eauto. }
  exists r. split; [exact Er|]. split; [exact Lr|]. split.
  - intros a b j Hab Hj. destruct (G a b j Hab Hj) as (x & Hx & Hy). apply Gr in Hy. congruence.
  - intros b j Hb Hni Hj. apply Gr. auto.
Qed.

Lemma permute_spec a_data a2b width : 0 <= width -> zlen a_data = zlen a2b * width -> is_perm a2b ->
  exists r, permute a_data a2b width = Ok r /\ zlen r = zlen a_data /\
  (forall a b j, zget a2b a = Ok b -> 0 <= j < width -> zget r (b * width + j) = zget a_data (a * width + j)).
Proof.
  intros Hw Hl Hp. unfold permute. pose proof (zlen_nonneg a2b). rewrite blank_ok by nia. cbn [bind].
  set (dst := repeat _ _). assert (zlen dst = zlen a2b * width) as Hd by (unfold dst; rewrite zlen_repeat; nia).
  destruct (map_into_spec a_data a2b dst width Hw Hl (is_perm_NoDup _ Hp)) as (d & E & L & G & F).
  { intros b Hb. apply (is_perm_in _ _ Hp) in Hb. nia. }
  rewrite E. cbn [bind].
  destruct (freeze_blocks width (zlen a2b) d) as (r & Er & Lr & Gr); auto; [congruence| |].
  { intros b j Hb Hj. apply (is_perm_in _ _ Hp) in Hb. apply In_zget in Hb as (a & Ha).
    destruct (G a b j Ha Hj) as (x & _ & Hx). eauto. }
  exists r. split; [exact Er|]. split; [congruence|].
  intros a b j Hab Hj. destruct (G a b j Hab Hj) as (x & Hx & Hy). apply Gr in Hy. congruence.
Qed.

Lemma blocks_eq width n (l m : list A) : 0 <= width -> zlen l = n * width -> zlen m = n * width ->
  (forall a j, 0 <= a < n -> 0 <= j < width -> zget l (a * width + j) = zget m (a * width + j)) -> l = m.
Proof.
  intros Hw Hl Hm H. apply list_eq_zget; [congruence|]. intros k Hk.
  destruct (Z.eq_dec width 0) as [->|Hw0]; [lia|].
  destruct (div_block width k) as (a & j & Ha & Hj & ->); [lia|lia|]. apply H; [nia|exact Hj].
Qed.

Lemma perm_maps_into a2b (l : list A) width : 0 <= width -> is_perm a2b -> zlen l = zlen a2b * width -> maps_into a2b l width.
Proof. intros Hw Hp Hl b Hb. apply (is_perm_in _ _ Hp) in Hb. nia. Qed.

Lemma permute_unmap a_data a2b width : 0 <= width -> zlen a_data = zlen a2b * width -> is_perm a2b ->
  exists r, permute a_data a2b width = Ok r /\ unmap a2b r width = Ok a_data.
Proof.
  intros Hw Hl Hp. destruct (permute_spec a_data a2b width Hw Hl Hp) as (r & E & L & G).
  exists r. split; [exact E|].
  destruct (unmap_spec a2b r width Hw) as (q & Eq & Lq & Gq); [apply perm_maps_into; auto; congruence|].
  rewrite Eq. f_equal. apply (blocks_eq width (zlen a2b)); auto.
  intros a j Ha Hj. destruct (zget_in_range a2b a Ha) as (b & Hb). rewrite (Gq a b j Hb Hj). apply G; auto.
Qed.

Lemma unmap_permute b_data a2b width : 0 <= width -> zlen b_data = zlen a2b * width -> is_perm a2b ->
  exists r, unmap a2b b_data width = Ok r /\ permute r a2b width = Ok b_data.
Proof.
  intros Hw Hl Hp.
  destruct (unmap_spec a2b b_data width Hw) as (q & Eq & Lq & Gq); [apply perm_maps_into; auto|].
  exists q. split; [exact Eq|].
  destruct (permute_spec q a2b width Hw Lq Hp) as (r & E & L & G).
  rewrite E. f_equal. apply (blocks_eq width (zlen a2b)); auto; [congruence|].
  intros b j Hb Hj. apply (is_perm_in _ _ Hp) in Hb. apply In_zget in Hb as (a & Ha).
  rewrite (G a b j Ha Hj). apply Gq; auto.
Qed.
End copies.
