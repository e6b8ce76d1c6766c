From Verif Require Import Prelude M_Linpart S_Linpart P_Linpart M_Map S_Map M_Array P_Array P_Map P_Map2 P_Graph M_Sort M_Comm P_Comm M_Bipart S_Bipart.
Local Open Scope Z_scope.

Lemma fold_add (l : list Z) a : fold_left Z.add l a = a + fold_right Z.add 0 l.
Proof. revert a. induction l as [|x t IH]; intros a; cbn [fold_left fold_right]; [lia|]. rewrite IH. lia. Qed.

Lemma sum_zlen {A} (ls : list (list A)) : fold_right Z.add 0 (map (@zlen A) ls) = zlen (concat ls).
Proof. induction ls as [|l t IH]; [reflexivity|]. cbn [map fold_right concat]. rewrite zlen_app, IH. reflexivity. Qed.

(* the number of entries in the lists before list r *)
Definition before {A} (ls : list (list A)) (r : Z) : Z := zlen (concat (firstn (Z.to_nat r) ls)).

Lemma before_succ {A} (ls : list (list A)) r l : zget ls r = Ok l -> before ls (r + 1) = before ls r + zlen l.
Proof.
  intros E. unfold before. rewrite (firstn_snoc ls r l E), concat_app, zlen_app. cbn [concat]. rewrite app_nil_r. reflexivity.
Qed.

Lemma before_mono {A} (ls : list (list A)) r r' : 0 <= r <= r' -> before ls r <= before ls r'.
Proof.
  intros H. unfold before. replace (firstn (Z.to_nat r) ls) with (firstn (Z.to_nat r) (firstn (Z.to_nat r') ls)).
  - rewrite <- (firstn_skipn (Z.to_nat r) (firstn (Z.to_nat r') ls)) at 2. rewrite concat_app, zlen_app.
    pose proof (zlen_nonneg (concat (skipn (Z.to_nat r) (firstn (Z.to_nat r') ls)))). lia.
  - rewrite firstn_firstn. f_equal. lia.
Qed.

Lemma before_all {A} (ls : list (list A)) r : zlen ls <= r -> before ls r = zlen (concat ls).
Proof. intros H. unfold before. rewrite firstn_all2; [reflexivity|]. unfold zlen in H. lia. Qed.

Lemma before_inj {A} (ls : list (list A)) r l a r' l' a' : zget ls r = Ok l -> zget ls r' = Ok l' ->
  0 <= a < zlen l -> 0 <= a' < zlen l' -> before ls r + a = before ls r' + a' -> r = r' /\ a = a'.
Proof.
  intros E E' Ha Ha' H. pose proof (zget_bounds _ _ _ E). pose proof (zget_bounds _ _ _ E').
  pose proof (before_succ _ _ _ E). pose proof (before_succ _ _ _ E').
  destruct (Z.lt_trichotomy r r') as [L|[L|L]].
  - pose proof (before_mono ls (r + 1) r'). lia.
  - subst r'. lia.
  - pose proof (before_mono ls (r' + 1) r). lia.
Qed.

Lemma before_locate {A} : forall (ls : list (list A)) g, 0 <= g < zlen (concat ls) ->
  exists r l a x, zget ls r = Ok l /\ zget l a = Ok x /\ g = before ls r + a.
Proof.
  induction ls as [|l t IH] using rev_ind; intros g Hg.
  - unfold zlen in Hg; cbn in Hg. lia.
  - rewrite concat_app, zlen_app in Hg. cbn [concat] in Hg. rewrite app_nil_r in Hg.
    destruct (Z_lt_le_dec g (zlen (concat t))) as [H|H].
    + destruct (IH g) as (r & l' & a & x & E & Ea & Eg); [lia|]. exists r, l', a, x.
      pose proof (zget_bounds _ _ _ E). rewrite zget_app_l by lia. split; [exact E|]. split; [exact Ea|].
      rewrite Eg. unfold before. f_equal. f_equal. f_equal. rewrite firstn_app.
      replace (Z.to_nat r - length t)%nat with 0%nat by (unfold zlen in *; lia). cbn [firstn]. rewrite app_nil_r. reflexivity.
    + destruct (zget_in_range l (g - zlen (concat t))) as (x & Ex); [lia|].
      exists (zlen t), l, (g - zlen (concat t)), x. split.
      * rewrite zget_app_r by lia. rewrite Z.sub_diag. reflexivity.
      * split; [exact Ex|]. unfold before. rewrite firstn_app.
        replace (Z.to_nat (zlen t) - length t)%nat with 0%nat by (unfold zlen; lia). cbn [firstn]. rewrite app_nil_r.
        rewrite firstn_all2 by (unfold zlen; lia). lia.
Qed.

Lemma starts_get (ls : list (list Z)) r l : zget ls r = Ok l -> zget (exscan_sum (map (@zlen Z) ls)) r = Ok (before ls r).
Proof.
  intros E. unfold exscan_sum. rewrite (exscan_from_get _ 0 r (zlen l)).
  - rewrite firstn_map, sum_zlen. reflexivity.
  - rewrite zget_map, E. reflexivity.
Qed.

Lemma totals_get (ls : list (list Z)) r l : zget ls r = Ok l -> zget (allreduce_sum (map (@zlen Z) ls)) r = Ok (zlen (concat ls)).
Proof.
  intros E. unfold allreduce_sum. rewrite zget_map, zget_map, E. cbn [bind]. rewrite fold_add, sum_zlen. reflexivity.
Qed.

Lemma marked_sorted marks : StronglySorted Z.lt (marked_indices marks).
Proof. apply filter_sorted, zrange_sorted. Qed.

Lemma marked_NoDup marks : NoDup (marked_indices marks).
Proof.
  unfold marked_indices. apply NoDup_filter, zrange_NoDup.
Qed.

Definition shaped {A B} (a : list (list A)) (b : list (list B)) : Prop :=
  zlen a = zlen b /\ forall r x y, zget a r = Ok x -> zget b r = Ok y -> zlen x = zlen y.

Lemma shaped_get {A B} (a : list (list A)) (b : list (list B)) r x : shaped a b -> zget b r = Ok x -> exists y, zget a r = Ok y /\ zlen y = zlen x.
Proof.
  intros [Hl Hs] E. pose proof (zget_bounds _ _ _ E). destruct (zget_in_range a r) as (y & Ey); [lia|].
  exists y. split; [exact Ey|]. exact (Hs r y x Ey E).
Qed.

Section Half.
Variables (marks : list (list Z)) (h rs : Z).
Hypothesis H01 : forall r ms m, zget marks r = Ok ms -> In m ms -> m = 0 \/ m = 1.
Hypothesis Hh : 0 < h.

Definition chosen : list (list Z) := map marked_indices marks.
Definition total : Z := zlen (concat chosen).

Lemma collect_all : mapM collect_marked marks = Ok chosen.
Proof.
  apply mapM_ok. unfold chosen. clear h rs Hh.
  assert (H : forall ms, In ms marks -> forall m, In m ms -> m = 0 \/ m = 1).
  { intros ms Hms m Hm. apply In_zget in Hms as (r & Er). exact (H01 r ms m Er Hm). }
  clear H01. induction marks as [|x t IH]; constructor.
  - apply collect_marked_spec. apply H. left. reflexivity.
  - apply IH. intros ms Hms. apply H. right. exact Hms.
Qed.

(* item i of rank r is chosen, its destination before shifting is (q, j) *)
Definition sent_to (r i : Z) (o : Z * Z) : Prop :=
  exists ms a, zget chosen r = Ok ms /\ zget ms a = Ok i /\ zget (laid_out total h) (before chosen r + a) = Ok o.

Lemma total_nonneg : 0 <= total.
Proof. apply zlen_nonneg. Qed.

Lemma slot_range r ms a i : zget chosen r = Ok ms -> zget ms a = Ok i -> 0 <= before chosen r + a < total.
Proof.
  intros E Ea. pose proof (zget_bounds _ _ _ Ea). pose proof (zget_bounds _ _ _ E). pose proof (before_succ _ _ _ E).
  pose proof (before_mono chosen (r + 1) (zlen chosen)). rewrite (before_all chosen (zlen chosen)) in * by lia.
  pose proof (zlen_nonneg (concat (firstn (Z.to_nat r) chosen))). unfold total, before in *. lia.
Qed.

Lemma chosen_item r i : (exists ms a, zget chosen r = Ok ms /\ zget ms a = Ok i) <-> holds marks r i 1.
Proof.
  split.
  - intros (ms & a & E & Ea). unfold chosen in E. rewrite zget_map in E. destruct (zget marks r) as [m| |] eqn:Em; try discriminate.
    cbn [bind] in E. assert (ms = marked_indices m) by congruence. subst. apply zget_In in Ea. apply marked_indices_in in Ea as (v & Ev & Hv).
    exists m. split; [exact Em|]. destruct (H01 r m v Em (zget_In _ _ _ Ev)); [lia|congruence].
  - intros (m & Em & Ev). assert (Hin : In i (marked_indices m)) by (apply marked_indices_in; exists 1; split; [exact Ev|lia]).
    apply In_zget in Hin as (a & Ea). exists (marked_indices m), a. split; [|exact Ea]. unfold chosen. rewrite zget_map, Em. reflexivity.
Qed.

Lemma sent_total r i : holds marks r i 1 -> exists o, sent_to r i o.
Proof.
  intros Hi. apply chosen_item in Hi as (ms & a & E & Ea). pose proof (slot_range _ _ _ _ E Ea) as HR.
  destruct (zget_in_range (laid_out total h) (before chosen r + a)) as (o & Eo); [rewrite laid_out_len by (try apply total_nonneg; lia); lia|].
  exists o, ms, a. auto.
Qed.

Lemma sent_functional r i o o' : sent_to r i o -> sent_to r i o' -> o = o'.
Proof.
  intros (ms & a & E & Ea & Eo) (ms' & a' & E' & Ea' & Eo'). assert (ms' = ms) by congruence. subst.
  assert (a = a'); [|subst; congruence]. unfold chosen in E. rewrite zget_map in E. destruct (zget marks r) as [m| |]; try discriminate.
  cbn [bind] in E. assert (ms = marked_indices m) by congruence. subst. exact (NoDup_zget _ _ _ _ (marked_NoDup m) Ea Ea').
Qed.

Lemma sent_in r i q j : sent_to r i (q, j) -> 0 <= q < h /\ 0 <= j < part_size total h q.
Proof.
  intros (ms & a & E & Ea & Eo). apply zget_In in Eo. apply laid_out_in in Eo; [exact Eo|apply total_nonneg|lia].
Qed.

Lemma sent_onto q j : 0 <= q < h -> 0 <= j < part_size total h q -> exists r i, holds marks r i 1 /\ sent_to r i (q, j).
Proof.
  intros Hq Hj. assert (Hin : In (q, j) (laid_out total h)) by (apply laid_out_in; [apply total_nonneg|lia|auto]).
  apply In_zget in Hin as (g & Eg). pose proof (zget_bounds _ _ _ Eg) as Hg. rewrite laid_out_len in Hg by (try apply total_nonneg; lia).
  destruct (before_locate chosen g Hg) as (r & l & a & i & E & Ea & ->). exists r, i. split; [apply chosen_item; eauto|].
  exists l, a. auto.
Qed.

Lemma sent_inj r i r' i' o : sent_to r i o -> sent_to r' i' o -> r = r' /\ i = i'.
Proof.
  intros (ms & a & E & Ea & Eo) (ms' & a' & E' & Ea' & Eo').
  pose proof (NoDup_zget _ _ _ _ (laid_out_NoDup total h) Eo Eo') as HH.
  destruct (before_inj chosen r ms a r' ms' a' E E' (zget_bounds _ _ _ Ea) (zget_bounds _ _ _ Ea') HH) as [-> ->].
  split; [reflexivity|]. congruence.
Qed.

Lemma bi_half_spec dests ls : shaped dests marks -> zlen ls = zlen marks ->
  exists dests' ls', bi_half marks h rs dests ls = Ok (dests', ls') /\ shaped dests' marks /\ zlen ls' = zlen marks /\
  (forall r i o, sent_to r i o -> holds dests' r i (Some (fst o + rs, snd o))) /\
  (forall r i x, holds marks r i 0 -> holds dests r i x -> holds dests' r i x) /\
  (forall r l, zget ls r = Ok l ->
     zget ls' r = Ok (if (rs <=? r) && (r <? rs + h) then part_size total h (r - rs) else l)).
Proof.
  intros Hsh Hls. unfold bi_half. rewrite collect_all. cbn [bind].
  assert (HD : forall r, 0 <= r < zlen marks -> exists d' m, zget marks r = Ok m /\ zlen d' = zlen m /\
    (m0 <- zget chosen r ;; t <- zget (allreduce_sum (map (@zlen Z) chosen)) r ;; s <- zget (exscan_sum (map (@zlen Z) chosen)) r ;;
     d <- zget dests r ;;
     owners <- globals_to_linear_owners (map (fun k => s + k) (zrange (zlen m0))) t h ;;
     map_into (map (fun o => (fst o + rs, snd o)) owners) m0 d 1) = Ok d' /\
    (forall i o, sent_to r i o -> zget d' i = Ok (Some (fst o + rs, snd o))) /\
    (forall i d x, zget m i = Ok 0 -> zget dests r = Ok d -> zget d i = Ok x -> zget d' i = Ok x)).
  { intros r Hr. destruct (zget_in_range marks r Hr) as (m & Em). destruct (shaped_get dests marks r m Hsh Em) as (d & Ed & Ld).
    assert (Ec : zget chosen r = Ok (marked_indices m)) by (unfold chosen; rewrite zget_map, Em; reflexivity).
    rewrite Ec, (totals_get _ _ _ Ec), (starts_get _ _ _ Ec), Ed. cbn [bind].
    set (mi := marked_indices m) in *. set (gs := map (fun k => before chosen r + k) (zrange (zlen mi))).
    destruct (linear_owners_laid_out gs total h) as (owners & Eo & FO); [apply total_nonneg|lia| |].
    { apply Forall_forall. intros g Hg. apply in_map_iff in Hg as (k & <- & Hk). apply in_zrange in Hk.
      destruct (zget_in_range mi k Hk) as (i & Ei). exact (slot_range r mi k i Ec Ei). }
    fold total. rewrite Eo. cbn [bind].
    assert (Lo : zlen owners = zlen mi).
    { pose proof (Forall2_len _ _ _ FO) as L. unfold gs in L. rewrite map_length in L. pose proof (zlen_zrange (zlen mi) (zlen_nonneg mi)) as LZ. unfold zlen in *. lia. }
    destruct (map_into_spec (map (fun o => (fst o + rs, snd o)) owners) mi d 1) as (d' & E' & L' & G' & O').
    - lia.
    - rewrite zlen_map. lia.
    - apply marked_NoDup.
    - intros b Hb. apply marked_indices_in in Hb as (v & Ev & _). apply zget_bounds in Ev. lia.
    - exists d', m. split; [exact Em|]. split; [lia|]. split; [exact E'|]. split.
      + intros i o (ms & a & Ems & Ea & Eao). assert (ms = mi) by congruence. subst ms.
        destruct (G' a i 0 Ea ltac:(lia)) as (x & Ex & Ed'). rewrite Z.mul_1_r, Z.add_0_r in Ex, Ed'.
        rewrite zget_map in Ex. rewrite Ed'. f_equal. f_equal.
        assert (Eoa : zget owners a = Ok o).
        { pose proof (zget_bounds _ _ _ Ea) as Ba. destruct (zget_in_range owners a) as (o' & Eo'); [lia|].
          assert (Eg : zget gs a = Ok (before chosen r + a)).
          { unfold gs. rewrite zget_map, zget_zrange by lia. reflexivity. }
          apply zget_ok in Eg as (_ & Eg). apply zget_ok in Eo' as (Hr' & Eo').
          assert (X : zget (laid_out total h) (before chosen r + a) = Ok o').
          { clear - FO Eg Eo'. revert Eg Eo'. generalize (Z.to_nat a) as k. induction FO as [|g o1 gs' os H _ IH]; intros [|k] Eg Eo'; try discriminate; cbn in Eg, Eo'.
            - congruence.
            - exact (IH k Eg Eo'). }
          assert (o' = o) by congruence. subst. apply zget_ok. auto. }
        rewrite Eoa in Ex. cbn [bind] in Ex. congruence.
      + intros i d0 x Em0 Ed0 Ex. assert (d0 = d) by congruence. subst d0.
        assert (Hn : ~ In i mi). { intros Hi. apply marked_indices_in in Hi as (v & Ev & Hv). congruence. }
        specialize (O' i 0 Hn ltac:(lia)). rewrite Z.mul_1_r, Z.add_0_r in O'. rewrite O'. exact Ex. }
  match goal with |- context [tabulate (zlen marks) ?F] => set (FD := F) end.
  destruct (mapM_total FD (zrange (zlen marks))) as (dests' & ED).
  { intros r Hr. apply in_zrange in Hr. destruct (HD r Hr) as (d' & m & _ & _ & E' & _). exists d'. exact E'. }
  assert (TD : tabulate (zlen marks) FD = Ok dests') by exact ED. rewrite TD. cbn [bind].
  apply tabulate_ok in TD as (LD & TD); [|apply zlen_nonneg].
  match goal with |- context [tabulate (zlen marks) ?F] => set (FL := F) end.
  assert (HL : forall r, 0 <= r < zlen marks -> exists l, zget ls r = Ok l /\
     FL r = Ok (if (rs <=? r) && (r <? rs + h) then part_size total h (r - rs) else l)).
  { intros r Hr. destruct (zget_in_range ls r) as (l & El); [lia|]. exists l. split; [exact El|]. unfold FL.
    destruct (zget_in_range marks r Hr) as (m & Em).
    assert (Ec : zget chosen r = Ok (marked_indices m)) by (unfold chosen; rewrite zget_map, Em; reflexivity).
    rewrite (totals_get _ _ _ Ec). cbn [bind]. destruct ((rs <=? r) && (r <? rs + h)); [|exact El].
    apply linear_partition_size_spec; [apply total_nonneg|lia]. }
  destruct (mapM_total FL (zrange (zlen marks))) as (ls' & EL).
  { intros r Hr. apply in_zrange in Hr. destruct (HL r Hr) as (l & _ & E'). eauto. }
  assert (TL : tabulate (zlen marks) FL = Ok ls') by exact EL. rewrite TL. cbn [bind].
  apply tabulate_ok in TL as (LL & TL); [|apply zlen_nonneg].
  exists dests', ls'. split; [reflexivity|]. split; [|split; [exact LL|split; [|split]]].
  - split; [exact LD|]. intros r x y Ex Ey. pose proof (zget_bounds _ _ _ Ey) as Hr. destruct (HD r Hr) as (d' & m & Em & Lm & E' & _).
    destruct (TD r Hr) as (dd & Ef & Eg). assert (FD r = Ok d') as EF by exact E'. rewrite EF in Ef.
    assert (x = d') by congruence. assert (y = m) by congruence. subst. exact Lm.
  - intros r i o Hs. assert (Hr : 0 <= r < zlen marks).
    { destruct Hs as (ms & a & E & _). apply zget_bounds in E. unfold chosen in E. rewrite zlen_map in E. exact E. }
    destruct (HD r Hr) as (d' & m & Em & Lm & E' & G1 & _). destruct (TD r Hr) as (dd & Ef & Eg). assert (FD r = Ok d') as EF by exact E'. rewrite EF in Ef.
    exists d'. split; [congruence|]. exact (G1 i o Hs).
  - intros r i x (m & Em & E0) (d & Ed & Ex). pose proof (zget_bounds _ _ _ Em) as Hr.
    destruct (HD r Hr) as (d' & m' & Em' & Lm & E' & _ & G2). destruct (TD r Hr) as (dd & Ef & Eg). assert (FD r = Ok d') as EF by exact E'. rewrite EF in Ef.
    exists d'. split; [congruence|]. assert (m' = m) by congruence. subst. exact (G2 i d x E0 Ed Ex).
  - intros r l El. pose proof (zget_bounds _ _ _ El) as Hr. rewrite Hls in Hr. destruct (HL r Hr) as (l' & El' & EF).
    destruct (TL r Hr) as (ll & Ef & Eg). rewrite EF in Ef. assert (l' = l) by congruence. subst. congruence.
Qed.
End Half.

Lemma marked_number (m : list Z) : zlen (marked_indices m) = zlen (filter (fun x => negb (x =? 0)) m).
Proof.
  induction m as [|x t IH] using rev_ind; [reflexivity|].
  unfold marked_indices in *. rewrite zlen_app. change (zlen [x]) with 1. rewrite zrange_succ by apply zlen_nonneg.
  rewrite !filter_app, !zlen_app, <- IH. f_equal.
  - f_equal. apply filter_ext_in. intros i Hi. apply in_zrange in Hi. rewrite zget_app_l by lia. reflexivity.
  - cbn [filter]. rewrite zget_app_r by lia. rewrite Z.sub_diag. change (zget [x] 0) with (Ok x). destruct (negb (x =? 0)); reflexivity.
Qed.

Lemma total_number marks : total marks = number (fun x => negb (x =? 0)) marks.
Proof.
  unfold total, number, chosen. induction marks as [|m t IH]; [reflexivity|].
  cbn [map concat]. rewrite filter_app, !zlen_app, IH, marked_number. reflexivity.
Qed.

Lemma invert01 marks : forall r ms m, zget (map invert_marks marks) r = Ok ms -> In m ms -> m = 0 \/ m = 1.
Proof.
  intros r ms m E Hm. rewrite zget_map in E. destruct (zget marks r) as [a| |]; try discriminate. cbn [bind] in E.
  assert (ms = invert_marks a) by congruence. subst. unfold invert_marks in Hm. apply in_map_iff in Hm as (x & <- & _). destruct (x =? 0); auto.
Qed.

Lemma invert_holds marks r i v : holds (map invert_marks marks) r i v <-> exists m, holds marks r i m /\ v = if m =? 0 then 1 else 0.
Proof.
  unfold holds. split.
  - intros (a & Ea & Ei). rewrite zget_map in Ea. destruct (zget marks r) as [b| |]; try discriminate. cbn [bind] in Ea.
    assert (a = invert_marks b) by congruence. subst. unfold invert_marks in Ei. rewrite zget_map in Ei. destruct (zget b i) as [m| |] eqn:Em; try discriminate.
    cbn [bind] in Ei. exists m. split; [exists b; auto|congruence].
  - intros (m & (a & Ea & Ei) & ->). exists (invert_marks a). rewrite zget_map, Ea. split; [reflexivity|].
    unfold invert_marks. rewrite zget_map, Ei. reflexivity.
Qed.

Lemma shaped_invert {A} (d : list (list A)) marks : shaped d (map invert_marks marks) <-> shaped d marks.
Proof.
  unfold shaped. rewrite zlen_map. split; intros (H1 & H2); (split; [exact H1|]); intros r x y Ex Ey.
  - rewrite (H2 r x (invert_marks y) Ex); [apply zlen_map|]. rewrite zget_map, Ey. reflexivity.
  - rewrite zget_map in Ey. destruct (zget marks r) as [b| |] eqn:Eb; try discriminate. cbn [bind] in Ey.
    assert (y = invert_marks b) by congruence. subst. rewrite (H2 r x b Ex Eb). symmetry. apply zlen_map.
Qed.

Lemma number_invert f marks : number f (map invert_marks marks) = number (fun x => f (if x =? 0 then 1 else 0)) marks.
Proof.
  unfold number. induction marks as [|m t IH]; [reflexivity|]. cbn [map concat]. rewrite !filter_app, !zlen_app, IH. f_equal.
  unfold invert_marks. clear. induction m as [|x m IH]; [reflexivity|]. cbn [map filter]. destruct (f (if x =? 0 then 1 else 0)); [rewrite !zlen_cons, IH|rewrite IH]; reflexivity.
Qed.
Lemma number_ext f g marks : (forall x, f x = g x) -> number f marks = number g marks.
Proof. intros H. unfold number. rewrite (filter_ext f g H). reflexivity. Qed.

Lemma bi_partition_spec marks h : 0 < h -> zlen marks = 2 * h ->
  exists dests sizes, bi_partition marks = Ok (dests, sizes) /\
  (* each item has a destination: unmarked items in the first half of the ranks, marked in the second *)
  zlen dests = 2 * h /\ zlen sizes = 2 * h /\
  (forall r i m, holds marks r i m -> exists q j s, holds dests r i (q, j) /\ zget sizes q = Ok s /\ 0 <= j < s /\
     (if m =? 0 then 0 <= q < h else h <= q < 2 * h)) /\
  (forall r i o, holds dests r i o -> exists m, holds marks r i m) /\
  (* each slot of each rank receives exactly one item *)
  (forall q j s, zget sizes q = Ok s -> 0 <= j < s -> exists r i, holds dests r i (q, j)) /\
  (forall r i r' i' o, holds dests r i o -> holds dests r' i' o -> r = r' /\ i = i') /\
  (* the ranks of a half hold the same number of items, up to one *)
  (forall q s, zget sizes q = Ok s ->
     let n := if q <? h then number (fun m => m =? 0) marks else number (fun m => negb (m =? 0)) marks in
     n / h <= s <= n / h + 1).
Proof.
  intros Hh Hsz. unfold bi_partition. rewrite Hsz.
  replace (2 * h mod 2 =? 0) with true by (symmetry; apply Z.eqb_eq; rewrite Z.mul_comm; apply Z_mod_mult).
  cbn [check bind]. unfold divide_no_remainder. cbn [Z.eqb negb check bind].
  rewrite Z.rem_mod_nonneg by lia. replace (2 * h mod 2 =? 0) with true by (symmetry; apply Z.eqb_eq; rewrite Z.mul_comm; apply Z_mod_mult).
  cbn [check bind]. rewrite Z.quot_div_nonneg by lia. replace (2 * h / 2) with h by (rewrite Z.mul_comm; symmetry; apply Z.div_mul; lia).
  set (m1 := map invert_marks marks). set (m2 := map invert_marks m1).
  destruct (mapM_total (fun m : list Z => @blank (Z * Z) (zlen m)) marks) as (d0 & E0).
  { intros m _. eexists. apply blank_ok, zlen_nonneg. }
  rewrite E0. cbn [bind].
  assert (S0 : shaped d0 marks).
  { apply mapM_ok in E0. split; [pose proof (Forall2_len _ _ _ E0); unfold zlen; lia|].
    intros r x y Ex Ey. apply zget_ok in Ex as (_ & Ex). apply zget_ok in Ey as (_ & Ey). clear - E0 Ex Ey. revert Ex Ey.
    generalize (Z.to_nat r) as k. induction E0 as [|a b la lb H _ IH]; intros [|k] Ex Ey; try discriminate; cbn in Ex, Ey.
    - assert (b = x) by congruence. assert (a = y) by congruence. subst. rewrite blank_ok in H by apply zlen_nonneg.
      assert (x = repeat None (Z.to_nat (zlen y))) by congruence. subst. rewrite zlen_repeat. pose proof (zlen_nonneg y). lia.
    - exact (IH k Ex Ey). }
  destruct (bi_half_spec m1 h 0 (invert01 marks) Hh d0 (map (fun _ => -1) m1)) as (d1 & l1 & E1 & S1 & L1 & P1 & K1 & Z1).
  { apply shaped_invert, S0. } { apply zlen_map. }
  rewrite E1. cbn [bind].
  destruct (bi_half_spec m2 h h (invert01 m1) Hh d1 l1) as (d2 & l2 & E2 & S2 & L2 & P2 & K2 & Z2).
  { apply shaped_invert, S1. } { rewrite L1. symmetry. apply zlen_map. }
  rewrite E2. cbn [bind].
  assert (Lm1 : zlen m1 = 2 * h) by (unfold m1; rewrite zlen_map; exact Hsz).
  assert (Lm2 : zlen m2 = 2 * h) by (unfold m2; rewrite zlen_map; exact Lm1).
  assert (M1 : forall r i m, holds marks r i m -> holds m1 r i (if m =? 0 then 1 else 0)) by (intros r i m Hm; apply invert_holds; eauto).
  assert (M2 : forall r i m, holds marks r i m -> holds m2 r i (if m =? 0 then 0 else 1)).
  { intros r i m Hm. apply invert_holds. exists (if m =? 0 then 1 else 0). split; [exact (M1 r i m Hm)|]. destruct (m =? 0); reflexivity. }
  (* every entry is written *)
  assert (W : forall r i m, holds marks r i m ->
     if m =? 0 return Prop then exists o, sent_to m1 h r i o /\ holds d2 r i (Some (fst o + 0, snd o))
     else exists o, sent_to m2 h r i o /\ holds d2 r i (Some (fst o + h, snd o))).
  { intros r i m Hm. pose proof (M1 r i m Hm) as H1. pose proof (M2 r i m Hm) as H2. destruct (m =? 0).
    - destruct (sent_total m1 h (invert01 marks) Hh r i H1) as (o & Ho). exists o. split; [exact Ho|]. apply K2; [exact H2|]. exact (P1 r i o Ho).
    - destruct (sent_total m2 h (invert01 m1) Hh r i H2) as (o & Ho). exists o. split; [exact Ho|]. exact (P2 r i o Ho). }
  assert (SH : shaped d2 marks) by exact (proj1 (shaped_invert d2 marks) (proj1 (shaped_invert d2 m1) S2)).
  assert (FZ : forall r d, zget d2 r = Ok d -> exists f, freeze d = Ok f /\ zlen f = zlen d /\ forall k x, zget d k = Ok (Some x) <-> zget f k = Ok x).
  { intros r d Ed. apply freeze_total. intros k Hk. pose proof (zget_bounds _ _ _ Ed) as Hr. destruct SH as (SH1 & SH2).
    destruct (zget_in_range marks r) as (ms & Ems); [lia|]. rewrite (SH2 r d ms Ed Ems) in Hk. destruct (zget_in_range ms k Hk) as (m & Em).
    specialize (W r k m (ex_intro _ ms (conj Ems Em))). destruct (m =? 0); destruct W as (o & _ & (d' & Ed' & Ek)); assert (d' = d) by congruence; subst; eauto. }
  destruct (mapM_total (@freeze (Z * Z)) d2) as (out & EO).
  { intros d Hd. apply In_zget in Hd as (r & Er). destruct (FZ r d Er) as (f & Ef & _). eauto. }
  rewrite EO. cbn [bind].
  assert (HO : forall r i x, holds out r i x <-> holds d2 r i (Some x)).
  { apply mapM_ok in EO. intros r i x. split.
    - intros (f & Ef & Ei). pose proof (zget_bounds _ _ _ Ef) as Hr. pose proof (Forall2_len _ _ _ EO) as HLen.
      destruct (zget_in_range d2 r) as (d & Ed); [unfold zlen in *; lia|]. exists d. split; [exact Ed|].
      destruct (FZ r d Ed) as (f' & Ef' & _ & Hf). apply Hf. assert (f' = f); [|subst; exact Ei].
      apply zget_ok in Ef as (_ & Ef). apply zget_ok in Ed as (_ & Ed). clear - EO Ef Ed Ef'. revert Ef Ed. generalize (Z.to_nat r) as k.
      induction EO as [|a b la lb H _ IH]; intros [|k] Ef Ed; try discriminate; cbn in Ef, Ed; [congruence|exact (IH k Ef Ed)].
    - intros (d & Ed & Ei). pose proof (zget_bounds _ _ _ Ed) as Hr. pose proof (Forall2_len _ _ _ EO) as HLen.
      destruct (zget_in_range out r) as (f & Ef); [unfold zlen in *; lia|]. exists f. split; [exact Ef|].
      destruct (FZ r d Ed) as (f' & Ef' & _ & Hf). apply Hf in Ei. assert (f' = f); [|subst; exact Ei].
      apply zget_ok in Ef as (_ & Ef). apply zget_ok in Ed as (_ & Ed). clear - EO Ef Ed Ef'. revert Ef Ed. generalize (Z.to_nat r) as k.
      induction EO as [|a b la lb H _ IH]; intros [|k] Ef Ed; try discriminate; cbn in Ef, Ed; [congruence|exact (IH k Ef Ed)]. }
  assert (SZ : forall q, 0 <= q < 2 * h -> zget l2 q = Ok (if q <? h then part_size (total m1) h q else part_size (total m2) h (q - h))).
  { intros q Hq. assert (A0 : zget (map (fun _ : list Z => -1) m1) q = Ok (-1)).
    { rewrite zget_map. destruct (zget_in_range m1 q) as (x & Ex); [lia|]. rewrite Ex. reflexivity. }
    pose proof (Z2 q _ (Z1 q _ A0)) as A2. rewrite A2. f_equal.
    destruct (Z.ltb_spec q h) as [HQ|HQ].
    - replace (h <=? q) with false by (symmetry; apply Z.leb_gt; lia). cbn [andb].
      replace (0 <=? q) with true by (symmetry; apply Z.leb_le; lia). replace (q <? 0 + h) with true by (symmetry; apply Z.ltb_lt; lia).
      cbn [andb]. f_equal. lia.
    - replace (h <=? q) with true by (symmetry; apply Z.leb_le; lia). replace (q <? h + h) with true by (symmetry; apply Z.ltb_lt; lia). reflexivity. }
  assert (LL : zlen l2 = 2 * h) by lia.
  assert (T1 : total m1 = number (fun m => m =? 0) marks).
  { rewrite total_number. unfold m1. rewrite number_invert. apply number_ext. intros x. destruct (x =? 0); reflexivity. }
  assert (T2 : total m2 = number (fun m => negb (m =? 0)) marks).
  { rewrite total_number. unfold m2, m1. rewrite !number_invert. apply number_ext. intros x. destruct (x =? 0); reflexivity. }
  assert (INV : forall r i o, holds d2 r i (Some o) -> exists m, holds marks r i m).
  { intros r i o (d & Ed & Ei). pose proof (zget_bounds _ _ _ Ed) as Hr. destruct SH as (SH1 & SH2).
    destruct (zget_in_range marks r) as (ms & Ems); [lia|]. pose proof (zget_bounds _ _ _ Ei) as Hi. rewrite (SH2 r d ms Ed Ems) in Hi.
    destruct (zget_in_range ms i Hi) as (m & Em). exists m, ms. auto. }
  assert (FUN : forall r i o o', holds d2 r i (Some o) -> holds d2 r i (Some o') -> o = o').
  { intros r i o o' (d & Ed & Ei) (d' & Ed' & Ei'). congruence. }
  exists out, l2. split; [reflexivity|]. split.
  { apply mapM_ok in EO. pose proof (Forall2_len _ _ _ EO). destruct SH as (SH1 & _). unfold zlen in *. lia. }
  split; [exact LL|]. split; [|split; [|split; [|split]]].
  - intros r i m Hm. pose proof (W r i m Hm) as Wm. destruct (m =? 0); destruct Wm as ((q & j) & Hs & Hd); cbn [fst snd] in Hd.
    + pose proof (sent_in m1 h (invert01 marks) Hh r i q j Hs) as (Hq & Hj). exists (q + 0), j. eexists. split; [apply HO, Hd|]. split; [apply SZ; lia|].
      replace (q + 0 <? h) with true by (symmetry; apply Z.ltb_lt; lia). rewrite Z.add_0_r. lia.
    + pose proof (sent_in m2 h (invert01 m1) Hh r i q j Hs) as (Hq & Hj). exists (q + h), j. eexists. split; [apply HO, Hd|]. split; [apply SZ; lia|].
      replace (q + h <? h) with false by (symmetry; apply Z.ltb_ge; lia). replace (q + h - h) with q by lia. lia.
  - intros r i o Ho. apply HO in Ho. exact (INV r i o Ho).
  - intros q j s Es Hj. pose proof (zget_bounds _ _ _ Es) as Hq. rewrite LL in Hq. rewrite (SZ q Hq) in Es.
    destruct (Z.ltb_spec q h) as [HQ|HQ].
    + assert (s = part_size (total m1) h q) by congruence. subst s.
      destruct (sent_onto m1 h (invert01 marks) Hh q j) as (r & i & H1 & Hs); [lia|exact Hj|]. exists r, i. apply HO.
      pose proof H1 as H1'. apply invert_holds in H1' as (m & Hm & Em). apply K2.
      * pose proof (M2 r i m Hm) as X. destruct (m =? 0); [exact X|discriminate].
      * replace (q, j) with (fst (q, j) + 0, snd (q, j)) by (cbn; f_equal; lia). exact (P1 r i _ Hs).
    + assert (s = part_size (total m2) h (q - h)) by congruence. subst s.
      destruct (sent_onto m2 h (invert01 m1) Hh (q - h) j) as (r & i & H1 & Hs); [lia|exact Hj|]. exists r, i. apply HO.
      replace (q, j) with (fst (q - h, j) + h, snd (q - h, j)) by (cbn; f_equal; lia). exact (P2 r i _ Hs).
  - intros r i r' i' o Ho Ho'. apply HO in Ho, Ho'. destruct (INV r i o Ho) as (m & Hm). destruct (INV r' i' o Ho') as (m' & Hm').
    pose proof (W r i m Hm) as W1. pose proof (W r' i' m' Hm') as W2.
    destruct (m =? 0), (m' =? 0); destruct W1 as ((q & j) & Hs & Hd), W2 as ((q' & j') & Hs' & Hd'); cbn [fst snd] in Hd, Hd';
    pose proof (FUN _ _ _ _ Ho Hd) as F1; pose proof (FUN _ _ _ _ Ho' Hd') as F2.
    + assert (q' = q) by (assert (q + 0 = q' + 0) by congruence; lia). assert (j' = j) by congruence. subst. exact (sent_inj m1 h r i r' i' _ Hs Hs').
    + exfalso. apply sent_in in Hs; [|apply invert01|exact Hh]. apply sent_in in Hs'; [|apply invert01|exact Hh]. assert (q + 0 = q' + h) by congruence. lia.
    + exfalso. apply sent_in in Hs; [|apply invert01|exact Hh]. apply sent_in in Hs'; [|apply invert01|exact Hh]. assert (q + h = q' + 0) by congruence. lia.
    + assert (q' = q) by (assert (q + h = q' + h) by congruence; lia). assert (j' = j) by congruence. subst. exact (sent_inj m2 h r i r' i' _ Hs Hs').
  - intros q s Es. pose proof (zget_bounds _ _ _ Es) as Hq. rewrite LL in Hq. rewrite (SZ q Hq) in Es. cbn zeta. rewrite <- T1, <- T2.
    destruct (q <? h); assert (Es' : s = part_size _ h _) by (injection Es as <-; reflexivity); rewrite Es'; unfold part_size; destruct (_ <? _ mod h); lia.
Qed.

Lemma bi_partition_odd_spec marks : zlen marks mod 2 <> 0 -> bi_partition marks = Abort.
Proof. intros H. unfold bi_partition. apply Z.eqb_neq in H. rewrite H. reflexivity. Qed.
