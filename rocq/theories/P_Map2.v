From Verif Require Import Prelude M_Array M_Par S_Par P_Par M_Scan S_Scan P_Scan M_Sort M_Map S_Map P_Array P_Map.
Local Open Scope Z_scope.

(** * Point scatters *)
Lemma point_scatter {B T} (v : B -> T) (at_ : B -> Z) ps : forall dst : list T,
  NoDup (map at_ ps) -> (forall p, In p ps -> 0 <= at_ p < zlen dst) ->
  exists d, foldM (fun d p => zset d (at_ p) (v p)) ps dst = Ok d /\ zlen d = zlen dst /\
  (forall p, In p ps -> zget d (at_ p) = Ok (v p)) /\
  (forall k, ~ In k (map at_ ps) -> zget d k = zget dst k).
Proof.
  induction ps as [|p ps IH]; intros dst Hn Hr; cbn [map foldM] in *.
  - exists dst. split; [reflexivity|]. split; [reflexivity|]. split; [intros ? []|reflexivity].
  - inversion Hn as [|? ? Hn1 Hn2]; subst.
    destruct (zset_in_range dst (at_ p) (v p)) as (d1 & E1); [apply Hr; left; reflexivity|].
    pose proof (zset_zlen _ _ _ _ E1) as L1.
    destruct (IH d1 Hn2) as (d & E & L & G & F); [intros q Hq; rewrite L1; apply Hr; right; exact Hq|].
    exists d. rewrite E1. cbn [bind]. split; [exact E|]. split; [congruence|]. split.
    + intros q [->|Hq]; [|apply G, Hq]. rewrite F by exact Hn1. eapply zset_get_eq; eauto.
    + intros k Hk. rewrite F by (intros C; apply Hk; right; exact C).
      eapply zset_get_ne; [exact E1|]. intros Heq; apply Hk; left; exact Heq.
Qed.

(** the same value everywhere: duplicates do no harm *)
Lemma value_scatter {T} (v : T) ps : forall dst : list T,
  (forall k, In k ps -> 0 <= k < zlen dst) ->
  exists d, foldM (fun d k => zset d k v) ps dst = Ok d /\ zlen d = zlen dst /\
  (forall k, In k ps -> zget d k = Ok v) /\ (forall k, ~ In k ps -> zget d k = zget dst k).
Proof.
  induction ps as [|p ps IH]; intros dst Hr; cbn [foldM].
  - exists dst. split; [reflexivity|]. split; [reflexivity|]. split; [intros ? []|reflexivity].
  - destruct (zset_in_range dst p v) as (d1 & E1); [apply Hr; left; reflexivity|].
    pose proof (zset_zlen _ _ _ _ E1) as L1.
    destruct (IH d1) as (d & E & L & G & F); [intros q Hq; rewrite L1; apply Hr; right; exact Hq|].
    exists d. rewrite E1. cbn [bind]. split; [exact E|]. split; [congruence|]. split.
    + intros q [->|Hq]; [|apply G, Hq]. destruct (in_dec Z.eq_dec q ps); [auto|].
      rewrite F by assumption. eapply zset_get_eq; eauto.
    + intros k Hk. rewrite F by (intros C; apply Hk; right; exact C).
      eapply zset_get_ne; [exact E1|]. intros Heq; apply Hk; left; exact Heq.
Qed.

Lemma foldM_combine_snd {S} (f : S -> Z -> res S) (l : list Z) s :
  foldM (fun d p => f d (snd p)) (combine (zrange (zlen l)) l) s = foldM f l s.
Proof.
  rewrite <- (foldM_map f snd). rewrite combine_snd by apply zrange_len_eq. reflexivity.
Qed.

Lemma invert_permutation_spec a2b : is_perm a2b ->
  exists b2a, invert_permutation a2b = Ok b2a /\ zlen b2a = zlen a2b /\ is_perm b2a /\
  forall a b, zget a2b a = Ok b <-> zget b2a b = Ok a.
Proof.
  intros Hp. unfold invert_permutation. pose proof (zlen_nonneg a2b). rewrite blank_ok by lia. cbn [bind].
  rewrite (forM_zip (fun d a b => zset d b (Some a))).
  set (dst := repeat _ _). assert (zlen dst = zlen a2b) as Hd by (unfold dst; rewrite zlen_repeat; lia).
  destruct (point_scatter (fun p => Some (fst p)) snd (combine (zrange (zlen a2b)) a2b) dst) as (d & E & L & G & F).
  { rewrite combine_snd by apply zrange_len_eq. apply is_perm_NoDup, Hp. }
  { intros [a b] H'. apply in_zip in H'. cbn [snd]. rewrite Hd. apply is_perm_in; auto. eapply zget_In; eauto. }
  rewrite E. cbn [bind].
  assert (forall a b, zget a2b a = Ok b -> zget d b = Ok (Some a)) as G'.
  { intros a b Hab. apply (G (a, b)). apply in_zip, Hab. }
  destruct (freeze_total d) as (r & Er & Lr & Gr).
  { intros b Hb. rewrite L, Hd in Hb. apply (is_perm_in _ _ Hp) in Hb. apply In_zget in Hb as (a & Ha). eauto. }
  assert (forall a b, zget a2b a = Ok b <-> zget r b = Ok a) as Q.
  { intros a b. split.
    - intros Hab. apply Gr, G', Hab.
    - intros Hb. pose proof (zget_bounds _ _ _ Hb) as B. rewrite Lr, L, Hd in B.
      apply (is_perm_in _ _ Hp) in B. apply In_zget in B as (a' & Ha').
      pose proof (proj1 (Gr b a') (G' _ _ Ha')) as E'. congruence. }
  exists r. split; [exact Er|]. split; [congruence|]. split; [|exact Q].
  apply is_perm_intro.
  - apply NoDup_zget_inv. intros i j x Hi Hj. apply Q in Hi, Hj. congruence.
  - intros a Ha. apply In_zget in Ha as (b & Hb). apply Q in Hb. pose proof (zget_bounds _ _ _ Hb). lia.
Qed.

Lemma compound_maps_spec a2b b2c : (forall b, In b a2b -> 0 <= b < zlen b2c) ->
  exists r, compound_maps a2b b2c = Ok r /\ zlen r = zlen a2b /\
  forall a b, zget a2b a = Ok b -> zget r a = zget b2c b.
Proof.
  intros H. unfold compound_maps. pose proof (zlen_nonneg a2b) as Hn.
  assert (exists r, tabulate (zlen a2b) (fun a => b <- zget a2b a ;; zget b2c b) = Ok r) as (r & E).
  { eexists. apply tabulate_map with (g := fun a => match (b <- zget a2b a ;; zget b2c b) with Ok x => x | _ => 0 end).
    intros i Hi. destruct (zget_in_range a2b i Hi) as (b & Hb). rewrite Hb. cbn [bind].
    destruct (zget_in_range b2c b) as (c & Hc); [apply H; eapply zget_In; eauto|]. rewrite Hc. reflexivity. }
  exists r. split; [exact E|]. apply tabulate_ok in E as [L G]; [|exact Hn]. split; [exact L|].
  intros a b Hab. destruct (G a (zget_bounds _ _ _ Hab)) as (c & Hc & Hr). rewrite Hab in Hc. cbn in Hc. congruence.
Qed.

Lemma invert_injective_map_spec a2b nb : 0 <= nb -> NoDup a2b -> (forall b, In b a2b -> 0 <= b < nb) ->
  exists r, invert_injective_map a2b nb = Ok r /\ zlen r = nb /\
  (forall a b, zget a2b a = Ok b -> zget r b = Ok a) /\
  (forall b, 0 <= b < nb -> ~ In b a2b -> zget r b = Ok (-1)).
Proof.
  intros Hnb Hn Hr. unfold invert_injective_map, inject_map. rewrite filled_ok by lia. cbn [bind].
  rewrite (forM_zip (fun d a b => zset d b a)).
  set (dst := repeat _ _). assert (zlen dst = nb) as Hd by (unfold dst; rewrite zlen_repeat; lia).
  destruct (point_scatter fst snd (combine (zrange (zlen a2b)) a2b) dst) as (d & E & L & G & F).
  { rewrite combine_snd by apply zrange_len_eq. exact Hn. }
  { intros [a b] H'. apply in_zip in H'. cbn [snd]. rewrite Hd. apply Hr. eapply zget_In; eauto. }
  exists d. split; [exact E|]. split; [congruence|]. split.
  - intros a b Hab. apply (G (a, b)). apply in_zip, Hab.
  - intros b Hb Hni. rewrite F by (rewrite combine_snd by apply zrange_len_eq; exact Hni).
    unfold dst. apply zget_repeat. lia.
Qed.

Lemma mark_image_spec a2b nb : 0 <= nb -> (forall b, In b a2b -> 0 <= b < nb) ->
  exists r, mark_image a2b nb = Ok r /\ zlen r = nb /\
  forall b, 0 <= b < nb -> zget r b = Ok (if in_dec Z.eq_dec b a2b then 1 else 0).
Proof.
  intros Hnb Hr. unfold mark_image. rewrite filled_ok by lia. cbn [bind].
  rewrite (forM_zip (fun d a b => zset d b 1)). rewrite (foldM_combine_snd (fun d b => zset d b 1)).
  set (dst := repeat _ _). assert (zlen dst = nb) as Hd by (unfold dst; rewrite zlen_repeat; lia).
  destruct (value_scatter 1 a2b dst) as (d & E & L & G & F); [intros; rewrite Hd; auto|].
  exists d. split; [exact E|]. split; [congruence|]. intros b Hb.
  destruct (in_dec Z.eq_dec b a2b); [auto|]. rewrite F by assumption. unfold dst. apply zget_repeat. lia.
Qed.

Lemma map_value_into_spec {T} (v : T) a2b dst : (forall b, In b a2b -> 0 <= b < zlen dst) ->
  exists r, map_value_into v a2b dst = Ok r /\ zlen r = zlen dst /\
  (forall b, In b a2b -> zget r b = Ok v) /\ (forall b, ~ In b a2b -> zget r b = zget dst b).
Proof.
  intros Hr. unfold map_value_into. rewrite (forM_zip (fun d a b => zset d b v)).
  rewrite (foldM_combine_snd (fun d b => zset d b v)). apply value_scatter, Hr.
Qed.

(** * collect_marked *)
Definition marked_indices (marks : list Z) : list Z :=
  filter (fun i => match zget marks i with Ok m => negb (m =? 0) | _ => false end) (zrange (zlen marks)).

Lemma firstn_snoc {A} (l : list A) i x : zget l i = Ok x ->
  firstn (Z.to_nat (i + 1)) l = firstn (Z.to_nat i) l ++ [x].
Proof.
  intros H. apply zget_ok in H as [Hi H]. replace (Z.to_nat (i + 1)) with (S (Z.to_nat i)) by lia.
  revert H. generalize (Z.to_nat i). induction l as [|y l IH]; intros [|n] H; cbn in *; try discriminate.
  - injection H as ->. reflexivity.
  - f_equal. apply IH, H.
Qed.

Lemma filter_zrange_succ (P : Z -> bool) n : 0 <= n ->
  filter P (zrange (n + 1)) = filter P (zrange n) ++ (if P n then [n] else []).
Proof. intros H. rewrite zrange_succ by exact H. rewrite filter_app. cbn. reflexivity. Qed.

Lemma marks_prefix_sum marks n : (forall m, In m marks -> m = 0 \/ m = 1) -> 0 <= n <= zlen marks ->
  zsum (firstn (Z.to_nat n) marks) =
  zlen (filter (fun i => match zget marks i with Ok m => negb (m =? 0) | _ => false end) (zrange n)).
Proof.
  intros Hm. set (P := fun i => _).
  assert (forall k, Z.of_nat k <= zlen marks -> zsum (firstn k marks) = zlen (filter P (zrange (Z.of_nat k)))) as H.
  { induction k as [|k IH]; intros Hk; [reflexivity|].
    destruct (zget_in_range marks (Z.of_nat k)) as (m & Em); [lia|].
    pose proof (firstn_snoc _ _ _ Em) as Ef.
    replace (Z.to_nat (Z.of_nat k + 1)) with (S k) in Ef by lia. rewrite Nat2Z.id in Ef. rewrite Ef, zsum_app.
    replace (Z.of_nat (S k)) with (Z.of_nat k + 1) by lia. rewrite filter_zrange_succ by lia. rewrite zlen_app.
    rewrite IH by lia. f_equal. unfold P. rewrite Em.
    destruct (Hm m (zget_In _ _ _ Em)) as [-> | ->]; reflexivity. }
  intros Hn. rewrite H by lia. rewrite Z2Nat.id by lia. reflexivity.
Qed.

Lemma firstn_filter_zrange P n N : 0 <= n <= N ->
  exists rest, filter P (zrange N) = filter P (zrange n) ++ rest.
Proof.
  intros H. exists (filter P (zfromto n N)). rewrite <- filter_app.
  f_equal. rewrite <- (zfromto_0 N), <- (zfromto_0 n). apply zfromto_app. lia.
Qed.

Lemma collect_marked_spec marks : (forall m, In m marks -> m = 0 \/ m = 1) ->
  collect_marked marks = Ok (marked_indices marks).
Proof.
  intros Hm. unfold collect_marked. pose proof (zlen_nonneg marks) as Hn.
  set (P := fun i => match zget marks i with Ok m => negb (m =? 0) | _ => false end).
  assert (forall i, 0 <= i <= zlen marks -> zget (offset_scan marks) i = Ok (zlen (filter P (zrange i)))) as Ho.
  { intros i Hi. rewrite offset_scan_get by exact Hi. f_equal. apply marks_prefix_sum; auto. }
  unfold last_of. rewrite offset_scan_length. replace (zlen marks + 1 - 1) with (zlen marks) by lia.
  rewrite Ho by lia. cbn [bind]. rewrite blank_ok by apply zlen_nonneg. cbn [bind].
  set (full := filter P (zrange (zlen marks))). change (marked_indices marks) with full.
  set (dst := repeat _ _). assert (zlen dst = zlen full) as Hd by (unfold dst; rewrite zlen_repeat; pose proof (zlen_nonneg full); lia).
  destruct (forM_invariant (fun i d => zlen d = zlen full /\
     forall k x, zget (filter P (zrange i)) k = Ok x -> zget d k = Ok (Some x)) (zlen marks) dst
     (fun d i => m <- zget marks i ;; if m =? 0 then Ok d else (o <- zget (offset_scan marks) i ;; zset d o (Some i))) Hn)
     as (d & E & L & G).
  - split; [exact Hd|]. intros k x Hx. pose proof (zget_bounds _ _ _ Hx). cbn in *. unfold zlen in *; cbn in *; lia.
  - intros i d Hi [L G]. destruct (zget_in_range marks i Hi) as (m & Em). rewrite Em. cbn [bind].
    rewrite filter_zrange_succ by lia. replace (P i) with (negb (m =? 0)) by (unfold P; rewrite Em; reflexivity).
    destruct (Z.eqb_spec m 0) as [->|Hm0]; cbn [negb].
    + exists d. split; [reflexivity|]. split; [exact L|]. rewrite app_nil_r. exact G.
    + rewrite Ho by lia. cbn [bind].
      assert (zlen (filter P (zrange (i + 1))) <= zlen full) as Hle.
      { destruct (firstn_filter_zrange P (i + 1) (zlen marks)) as (rest & Hrest); [lia|].
        unfold full. rewrite Hrest, zlen_app. pose proof (zlen_nonneg rest). lia. }
      rewrite filter_zrange_succ in Hle by lia. replace (P i) with (negb (m =? 0)) in Hle by (unfold P; rewrite Em; reflexivity).
      rewrite (proj2 (Z.eqb_neq _ _) Hm0) in Hle. cbn [negb] in Hle. rewrite zlen_app in Hle. change (zlen [i]) with 1 in Hle.
      pose proof (zlen_nonneg (filter P (zrange i))).
      destruct (zset_in_range d (zlen (filter P (zrange i))) (Some i)) as (d' & E'); [lia|].
      exists d'. split; [exact E'|]. split; [rewrite (zset_zlen _ _ _ _ E'); exact L|].
      intros k x Hx. pose proof (zget_bounds _ _ _ Hx) as Bx. rewrite zlen_app in Bx. change (zlen [i]) with 1 in Bx.
      destruct (Z.eq_dec k (zlen (filter P (zrange i)))) as [->|Hne].
      * rewrite zget_app_r in Hx by lia. rewrite Z.sub_diag in Hx. cbn in Hx. injection Hx as <-. eapply zset_get_eq; eauto.
      * rewrite (zset_get_ne _ _ _ _ _ E') by lia. rewrite zget_app_l in Hx by lia. auto.
  - rewrite E. cbn [bind]. apply freeze_ok. apply list_eq_zget; [rewrite zlen_map; exact L|].
    intros k Hk. rewrite L in Hk. destruct (zget_in_range full k Hk) as (x & Hx). rewrite zget_map, Hx. cbn. apply G, Hx.
Qed.

Lemma marked_indices_in marks i : In i (marked_indices marks) <-> exists m, zget marks i = Ok m /\ m <> 0.
Proof.
  unfold marked_indices. rewrite filter_In, in_zrange. split.
  - intros [_ H]. destruct (zget marks i); try discriminate. exists a. split; [reflexivity|]. lia.
  - intros (m & E & Hm). split; [eapply zget_bounds; eauto|]. rewrite E. lia.
Qed.

Lemma zrange_sorted n : StronglySorted Z.lt (zrange n).
Proof.
  unfold zrange. generalize (Z.to_nat n), 0%nat as s. clear n. induction n as [|n IH]; intros s; cbn; constructor; [apply IH|].
  apply Forall_forall. intros x H. apply in_map_iff in H as (k & <- & H). apply in_seq in H. lia.
Qed.
Lemma filter_sorted {A} (R : A -> A -> Prop) (P : A -> bool) l : StronglySorted R l -> StronglySorted R (filter P l).
Proof.
  induction 1 as [|x l H IH F]; cbn; [constructor|]. destruct (P x); [|exact IH]. constructor; [exact IH|].
  apply Forall_forall. intros y Hy. apply filter_In in Hy as [Hy _]. eapply Forall_forall in F; eauto.
Qed.
Lemma collect_marked_full marks : (forall m, In m marks -> m = 0 \/ m = 1) ->
  exists r, collect_marked marks = Ok r /\ StronglySorted Z.lt r /\
  forall i, In i r <-> zget marks i = Ok 1.
Proof.
  intros Hm. exists (marked_indices marks). split; [apply collect_marked_spec, Hm|].
  split; [apply filter_sorted, zrange_sorted|]. intros i. rewrite marked_indices_in. split.
  - intros (m & E & Hm0). destruct (Hm m (zget_In _ _ _ E)); subst; [lia|exact E].
  - intros E. exists 1. split; [exact E|lia].
Qed.

Lemma invert_marks_spec marks i m : zget marks i = Ok m -> zget (invert_marks marks) i = Ok (if m =? 0 then 1 else 0).
Proof. intros H. unfold invert_marks. rewrite zget_map, H. reflexivity. Qed.

(** * add_into *)
Lemma add_into_spec a_data a2b dst width : 0 <= width -> zlen a_data = zlen a2b * width -> NoDup a2b ->
  maps_into a2b dst width ->
  exists d, add_into a_data a2b dst width = Ok d /\ zlen d = zlen dst /\
  (forall a b j, zget a2b a = Ok b -> 0 <= j < width ->
     exists x y, zget a_data (a * width + j) = Ok x /\ zget dst (b * width + j) = Ok y /\
       zget d (b * width + j) = Ok (y + x)) /\
  (forall b j, ~ In b a2b -> 0 <= j < width -> zget d (b * width + j) = zget dst (b * width + j)).
Proof.
  intros Hw Hl Hn Hm. unfold add_into, check. rewrite (proj2 (Z.eqb_eq _ _) Hl). cbn [bind].
  set (blk := fun d a b => forM width d (fun d j =>
      x <- zget a_data (a * width + j) ;; y <- zget d (b * width + j) ;; zset d (b * width + j) (y + x))).
  change (forM (zlen a2b) dst _) with (forM (zlen a2b) dst (fun d a => b <- zget a2b a ;; blk d a b)).
  rewrite (forM_zip blk).
  assert (forall a b, In (a, b) (combine (zrange (zlen a2b)) a2b) ->
     0 <= a /\ (a + 1) * width <= zlen a_data /\ 0 <= b /\ (b + 1) * width <= zlen dst) as Hr.
  { intros a b H. apply in_zip in H. destruct (Hm b (zget_In _ _ _ H)). pose proof (zget_bounds _ _ _ H). nia. }
  assert (NoDup (map snd (combine (zrange (zlen a2b)) a2b))) as Hnd by (rewrite combine_snd by apply zrange_len_eq; exact Hn).
  assert (forall ps dst, NoDup (map snd ps) ->
    (forall a b, In (a, b) ps -> 0 <= a /\ (a + 1) * width <= zlen a_data /\ 0 <= b /\ (b + 1) * width <= zlen dst) ->
    exists d, foldM (fun d p => blk d (fst p) (snd p)) ps dst = Ok d /\ zlen d = zlen dst /\
    (forall a b j, In (a, b) ps -> 0 <= j < width -> exists x y, zget a_data (a * width + j) = Ok x /\
       zget dst (b * width + j) = Ok y /\ zget d (b * width + j) = Ok (y + x)) /\
    (forall b j, ~ In b (map snd ps) -> 0 <= j < width -> zget d (b * width + j) = zget dst (b * width + j))) as K.
  { clear -Hw. induction ps as [|[a b] ps IH]; intros dst Hnd Hr; cbn [map snd foldM fst] in *.
    - exists dst. split; [reflexivity|]. split; [reflexivity|]. split; [intros ? ? ? []|reflexivity].
    - inversion Hnd as [|? ? Hn1 Hn2]; subst.
      destruct (Hr a b) as (R1 & R2 & R3 & R4); [left; reflexivity|].
      assert (exists d1, blk dst a b = Ok d1 /\ zlen d1 = zlen dst /\
        (forall j, 0 <= j < width -> exists x y, zget a_data (a * width + j) = Ok x /\
          zget dst (b * width + j) = Ok y /\ zget d1 (b * width + j) = Ok (y + x)) /\
        (forall k, ~ (b * width <= k < (b + 1) * width) -> zget d1 k = zget dst k)) as (d1 & E1 & L1 & G1 & F1).
      { unfold blk. destruct (forM_invariant (fun i d => zlen d = zlen dst /\
          (forall j, 0 <= j < i -> exists x y, zget a_data (a * width + j) = Ok x /\
             zget dst (b * width + j) = Ok y /\ zget d (b * width + j) = Ok (y + x)) /\
          (forall k, ~ (b * width <= k < b * width + i) -> zget d k = zget dst k)) width dst
          (fun d j => x <- zget a_data (a * width + j) ;; y <- zget d (b * width + j) ;; zset d (b * width + j) (y + x)) Hw)
          as (d & E & H1 & H2 & H3).
        - split; [reflexivity|]. split; intros; [lia|reflexivity].
        - intros i d Hi (H1 & H2 & H3).
          destruct (zget_in_range a_data (a * width + i)) as (x & Hx); [nia|].
          destruct (zget_in_range dst (b * width + i)) as (y & Hy); [nia|].
          assert (zget d (b * width + i) = Ok y) as Hy' by (rewrite H3 by lia; exact Hy).
          destruct (zset_in_range d (b * width + i) (y + x)) as (d' & Hd'); [nia|].
          exists d'. rewrite Hx. cbn [bind]. rewrite Hy'. cbn [bind]. split; [exact Hd'|].
          split; [rewrite (zset_zlen _ _ _ _ Hd'); exact H1|]. split.
          + intros j Hj. destruct (Z.eq_dec j i) as [->|Hne].
            * exists x, y. split; [exact Hx|]. split; [exact Hy|]. eapply zset_get_eq; eauto.
            * destruct (H2 j) as (x' & y' & Hx' & Hy2 & Hz); [lia|]. exists x', y'. split; [exact Hx'|]. split; [exact Hy2|].
              rewrite (zset_get_ne _ _ _ _ _ Hd') by lia. exact Hz.
          + intros k Hk. rewrite (zset_get_ne _ _ _ _ _ Hd') by lia. apply H3. lia.
        - exists d. split; [exact E|]. split; [exact H1|]. split; [exact H2|]. intros k Hk. apply H3. nia. }
      destruct (IH d1) as (d & E & L & G & F); auto.
      { intros a' b' Hin. rewrite L1. apply Hr. right; exact Hin. }
      exists d. rewrite E1. cbn [bind]. split; [exact E|]. split; [congruence|]. split.
      + intros a' b' j [Heq|Hin] Hj.
        * injection Heq as <- <-. destruct (G1 j Hj) as (x & y & Hx & Hy & Hz). exists x, y.
          split; [exact Hx|]. split; [exact Hy|]. rewrite F by auto. exact Hz.
        * destruct (G a' b' j Hin Hj) as (x & y & Hx & Hy & Hz). exists x, y. split; [exact Hx|]. split; [|exact Hz].
          rewrite <- Hy. symmetry. apply F1. assert (b <> b') as Hne; [|nia].
          intros ->. apply Hn1. apply in_map_iff. exists (a', b'). auto.
      + intros b' j Hni Hj. rewrite F by (auto; intros C; apply Hni; right; exact C).
        apply F1. assert (b <> b') as Hne by (intros ->; apply Hni; left; reflexivity). nia. }
  destruct (K _ dst Hnd Hr) as (d & E & L & G & F).
  exists d. split; [exact E|]. split; [exact L|]. split.
  - intros a b j Hab Hj. apply G; [|exact Hj]. apply in_zip, Hab.
  - intros b j Hb Hj. apply F; [|exact Hj]. rewrite combine_snd by apply zrange_len_eq. exact Hb.
Qed.

Lemma map_into_range_spec {A} (a_data : list A) begin end_ dst width : 0 <= width -> 0 <= begin <= end_ ->
  end_ * width <= zlen dst -> zlen a_data = (end_ - begin) * width ->
  exists d, map_into_range a_data begin end_ dst width = Ok d /\ zlen d = zlen dst /\
  (forall k x, zget a_data k = Ok x -> zget d (begin * width + k) = Ok (Some x)) /\
  (forall k, ~ (begin * width <= k < end_ * width) -> zget d k = zget dst k).
Proof.
  intros Hw Hr Hl Hla. unfold map_into_range, check. rewrite (proj2 (Z.eqb_eq _ _) Hla). cbn [bind].
  destruct (scatter_ok width a_data (map (fun a => (a, begin + a)) (zrange (end_ - begin))) dst Hw) as (d & E & L & G & F).
  - rewrite map_map. cbn [snd]. apply Injective_map_NoDup; [intros x y; lia|apply zrange_NoDup].
  - intros a b Hi. apply in_map_iff in Hi as (a' & Heq & Hi). injection Heq as <- <-. apply in_zrange in Hi. nia.
  - unfold scatter in E. rewrite foldM_map in E. cbn [fst snd] in E. exists d. split; [exact E|]. split; [exact L|].
    destruct (Z.eq_dec width 0) as [->|Hw0].
    + split; [intros k x Hk; apply zget_bounds in Hk; lia|]. intros k _.
      assert (forall ps s r, foldM (fun d p => copy_block 0 a_data p d (begin + p)) ps s = Ok r -> r = s) as Hz.
      { induction ps as [|p ps IH]; intros s r; cbn [foldM]; [congruence|]. cbn. apply IH. }
      apply Hz in E. congruence.
    + split.
      * intros k x Hk. pose proof (zget_bounds _ _ _ Hk) as Bk.
        destruct (div_block width k) as (a & j & Ha & Hj & ->); [lia|lia|].
        destruct (G a (begin + a) j) as (y & Hy & Hz); [|exact Hj|].
        { apply in_map_iff. exists a. split; [reflexivity|]. apply in_zrange. nia. }
        replace (begin * width + (a * width + j)) with ((begin + a) * width + j) by ring. congruence.
      * intros k Hk. destruct (Z.lt_ge_cases k 0) as [Hneg|Hpos].
        { unfold zget. destruct (Z.ltb_spec k 0); [reflexivity|lia]. }
        destruct (div_block width k) as (b & j & Hb & Hj & ->); [lia|lia|].
        apply F; [|exact Hj]. rewrite map_map. cbn [snd]. intros C. apply in_map_iff in C as (a & <- & C).
        apply in_zrange in C. apply Hk. nia.
Qed.
