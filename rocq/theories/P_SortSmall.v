From Verif Require Import Prelude M_Array M_Scan S_Scan P_Scan M_Sort S_Sort S_Map P_Array P_Map P_Map2 P_Sort.
Local Open Scope Z_scope.

Lemma count_cons P x l : count P (x :: l) = (if P x then 1 else 0) + count P l.
Proof. unfold count. cbn. destruct (P x); [rewrite zlen_cons; lia|lia]. Qed.
Lemma count_nonneg P l : 0 <= count P l.
Proof. apply zlen_nonneg. Qed.
Lemma count_app P l m : count P (l ++ m) = count P l + count P m.
Proof. unfold count. rewrite filter_app, zlen_app. reflexivity. Qed.
Lemma count_le P Q l : (forall x, In x l -> P x = true -> Q x = true) -> count P l <= count Q l.
Proof.
  induction l as [|x l IH]; intros H; [reflexivity|]. rewrite !count_cons.
  specialize (IH ltac:(intros; apply H; [right; assumption|assumption])).
  specialize (H x ltac:(left; reflexivity)). destruct (P x); [rewrite H by reflexivity; lia|].
  destruct (Q x); lia.
Qed.
Lemma count_ext P Q l : (forall x, In x l -> P x = Q x) -> count P l = count Q l.
Proof.
  induction l as [|x l IH]; intros H; [reflexivity|]. rewrite !count_cons, IH by (intros; apply H; right; assumption).
  rewrite (H x) by (left; reflexivity). reflexivity.
Qed.
Lemma count_split P Q T l : (forall x, In x l -> T x = (P x || Q x)%bool /\ (P x && Q x)%bool = false) -> count T l = count P l + count Q l.
Proof.
  induction l as [|x l IH]; intros H; [reflexivity|]. rewrite !count_cons, IH by (intros; apply H; right; assumption).
  destruct (H x ltac:(left; reflexivity)) as [-> H2]. destruct (P x), (Q x); cbn [orb andb] in *; try discriminate; lia.
Qed.
Lemma count_all P l : (forall x, In x l -> P x = true) -> count P l = zlen l.
Proof.
  intros H. unfold count. f_equal. induction l as [|x l IH]; [reflexivity|]. cbn. rewrite H by (left; reflexivity).
  f_equal. apply IH. intros; apply H; right; assumption.
Qed.
Lemma count_total P l : count P l <= zlen l.
Proof. induction l as [|x l IH]; [reflexivity|]. rewrite count_cons, zlen_cons. destruct (P x); lia. Qed.
Lemma count_zero P l : count P l = 0 -> forall x, In x l -> P x = false.
Proof.
  induction l as [|x l IH]; intros H y Hy; [destruct Hy|]. rewrite count_cons in H. pose proof (count_nonneg P l).
  destruct (P x) eqn:E; [lia|]. destruct Hy as [<-|Hy]; [exact E|]. apply IH; [lia|exact Hy].
Qed.
Lemma count_pos P l x : In x l -> P x = true -> 0 < count P l.
Proof.
  intros Hi HP. pose proof (count_nonneg P l). destruct (Z.eq_dec (count P l) 0) as [E|E]; [|lia].
  pose proof (count_zero P l E x Hi). congruence.
Qed.
Lemma count_full P l : count P l = zlen l -> forall x, In x l -> P x = true.
Proof.
  induction l as [|x l IH]; intros H y Hy; [destruct Hy|]. rewrite count_cons, zlen_cons in H. pose proof (count_total P l).
  destruct (P x) eqn:E; [|lia]. destruct Hy as [<-|Hy]; [exact E|]. apply IH; [lia|exact Hy].
Qed.

Lemma fold_min_spec l : forall d, let r := fold_left Z.min l d in
  r <= d /\ (forall x, In x l -> r <= x) /\ (r = d \/ In r l).
Proof.
  induction l as [|x l IH]; intros d r; cbn in r; [split; [lia|split; [intros ? []|left; reflexivity]]|].
  destruct (IH (Z.min d x)) as (H1 & H2 & H3). fold r in H1, H2, H3. split; [lia|]. split.
  - intros y [<-|Hy]; [lia|auto].
  - destruct H3 as [H3|H3]; [|right; right; exact H3]. destruct (Z.min_spec d x) as [[_ E]|[_ E]]; rewrite E in H3.
    + left; exact H3.
    + right; left; congruence.
Qed.

Section small.
Variable a : list Z.

Definition below (v : Z) : Z := count (fun x => x <? v) a.
Definition upto (v : Z) : Z := count (fun x => x <=? v) a.
Definition same (v : Z) : Z := count (fun x => x =? v) a.
(** number of earlier entries with the same value *)
Definition earlier (i v : Z) : Z := count (fun x => x =? v) (firstn (Z.to_nat i) a).
Definition rank (i v : Z) : Z := below v + earlier i v.

Lemma upto_eq v : upto v = below v + same v.
Proof. apply count_split. intros x _. split; [destruct (Z.leb_spec x v), (Z.ltb_spec x v), (Z.eqb_spec x v); cbn; try reflexivity; lia|].
  destruct (Z.ltb_spec x v), (Z.eqb_spec x v); cbn; try reflexivity; lia. Qed.

Lemma scan_count v i : 0 <= i <= zlen a ->
  zget (0 :: transform_inclusive_scan Z.add (fun x => if x =? v then 1 else 0) a) i = Ok (earlier i v).
Proof.
  intros Hi. assert (forall l m, transform_inclusive_scan Z.add (fun x => if x =? m then 1 else 0) l =
     inclusive_scan (map (fun x => if x =? m then 1 else 0) l)) as Heq.
  { intros [|x l] m; [reflexivity|]. unfold inclusive_scan, transform_inclusive_scan. cbn [map]. f_equal.
    generalize (if x =? m then 1 else 0). induction l as [|y l IH]; intros z; cbn; [reflexivity|]. f_equal. apply IH. }
  rewrite Heq. change (0 :: inclusive_scan ?l) with (offset_scan l). rewrite offset_scan_get by (rewrite zlen_map; exact Hi).
  f_equal. rewrite firstn_map. unfold earlier. generalize (firstn (Z.to_nat i) a).
  induction l as [|x l IH]; [reflexivity|]. rewrite count_cons, <- IH. reflexivity.
Qed.

Lemma earlier_all v : earlier (zlen a) v = same v.
Proof. unfold earlier, same. unfold zlen. rewrite Nat2Z.id, firstn_all. reflexivity. Qed.

Lemma number_same_values_spec v :
  exists t, number_same_values a v = Ok (t, same v) /\ zlen t = zlen a + 1 /\
  (forall i, 0 <= i <= zlen a -> zget t i = Ok (earlier i v)).
Proof.
  unfold number_same_values. set (t := 0 :: _). pose proof (zlen_nonneg a).
  assert (zlen t = zlen a + 1) as Ht by (unfold t; rewrite zlen_cons; unfold zlen; rewrite scan_length; reflexivity).
  unfold last_of. rewrite Ht. replace (zlen a + 1 - 1) with (zlen a) by lia.
  unfold t at 1. rewrite scan_count by lia. rewrite earlier_all. cbn [bind].
  exists t. split; [reflexivity|]. split; [exact Ht|]. intros i Hi. apply scan_count, Hi.
Qed.

Lemma combine_perms_spec v t perm ndone : zlen t = zlen a + 1 ->
  (forall i, 0 <= i <= zlen a -> zget t i = Ok (earlier i v)) -> zlen perm = zlen a ->
  exists p, combine_perms a v t perm ndone = Ok p /\ zlen p = zlen a /\
  (forall i, zget a i = Ok v -> zget p i = Ok (earlier i v + ndone)) /\
  (forall i x, zget a i = Ok x -> x <> v -> zget p i = zget perm i).
Proof.
  intros Ht Hg Hp. unfold combine_perms. pose proof (zlen_nonneg a) as Hn.
  destruct (zset_in_range t 0 0) as (t' & Et); [lia|]. rewrite Et. cbn [bind].
  assert (forall i, 0 <= i <= zlen a -> zget t' i = Ok (earlier i v)) as Hg'.
  { intros i Hi. destruct (Z.eq_dec i 0) as [->|Hne].
    - rewrite (zset_get_eq _ _ _ _ Et). reflexivity.
    - rewrite (zset_get_ne _ _ _ _ _ Et) by lia. apply Hg, Hi. }
  destruct (forM_invariant (fun i p => zlen p = zlen a /\
     (forall k, k < i -> zget a k = Ok v -> zget p k = Ok (earlier k v + ndone)) /\
     (forall k x, zget a k = Ok x -> x <> v \/ i <= k -> zget p k = zget perm k)) (zlen a) perm
     (fun p i => x <- zget a i ;; if x =? v then (t <- zget t' i ;; zset p i (t + ndone)) else Ok p) Hn)
     as (p & E & L & G & F).
  - split; [exact Hp|]. split; [intros k Hk Ha; apply zget_bounds in Ha; lia|reflexivity].
  - intros i p Hi (L & G & F). destruct (zget_in_range a i Hi) as (x & Ex). rewrite Ex. cbn [bind].
    destruct (Z.eqb_spec x v) as [->|Hne].
    + rewrite Hg' by lia. cbn [bind]. destruct (zset_in_range p i (earlier i v + ndone)) as (p' & Ep); [lia|].
      exists p'. split; [exact Ep|]. split; [rewrite (zset_zlen _ _ _ _ Ep); exact L|]. split.
      * intros k Hk Hv. destruct (Z.eq_dec k i) as [->|Hki]; [eapply zset_get_eq; eauto|].
        rewrite (zset_get_ne _ _ _ _ _ Ep) by lia. apply G; [lia|exact Hv].
      * intros k y Hy Hd. assert (k <> i) by (intros ->; destruct Hd; [congruence|lia]).
        rewrite (zset_get_ne _ _ _ _ _ Ep) by lia. apply (F k y Hy). destruct Hd; [left; assumption|right; lia].
    + exists p. split; [reflexivity|]. split; [exact L|]. split.
      * intros k Hk Hv. apply G; [|exact Hv]. assert (k <> i) by (intros ->; congruence). lia.
      * intros k y Hy Hd. apply (F k y Hy). destruct Hd; [left; assumption|right; lia].
  - exists p. split; [exact E|]. split; [exact L|]. split.
    + intros i Hv. apply G; [apply zget_bounds in Hv; lia|exact Hv].
    + intros i x Hx Hne. apply (F i x Hx). left; exact Hne.
Qed.

Lemma earlier_lt i j v : zget a i = Ok v -> i < j -> earlier i v < earlier j v.
Proof.
  intros Hi Hlt. pose proof (zget_bounds _ _ _ Hi) as B. unfold earlier.
  assert (firstn (Z.to_nat j) a = firstn (Z.to_nat (i + 1)) a ++ skipn (Z.to_nat (i + 1)) (firstn (Z.to_nat j) a)) as E.
  { rewrite <- (firstn_skipn (Z.to_nat (i + 1)) (firstn (Z.to_nat j) a)) at 1. f_equal.
    rewrite firstn_firstn. f_equal. lia. }
  rewrite E, count_app, (firstn_snoc _ _ _ Hi), count_app, count_cons.
  pose proof (count_nonneg (fun x => x =? v) (skipn (Z.to_nat (i + 1)) (firstn (Z.to_nat j) a))).
  change (count (fun x => x =? v) []) with 0. rewrite Z.eqb_refl. lia.
Qed.

Lemma rank_range i v : zget a i = Ok v -> below v <= rank i v < upto v.
Proof.
  intros H. pose proof (zget_bounds _ _ _ H). rewrite upto_eq. unfold rank. pose proof (count_nonneg (fun x => x =? v) (firstn (Z.to_nat i) a)).
  fold (earlier i v) in *. pose proof (earlier_lt i (zlen a) v H ltac:(lia)). rewrite earlier_all in *. lia.
Qed.
Lemma upto_below x y : x < y -> upto x <= below y.
Proof. intros H. apply count_le. intros z _ Hz. lia. Qed.
Lemma upto_le v : upto v <= zlen a.
Proof. apply count_total. Qed.

Lemma rank_inj i j x y : zget a i = Ok x -> zget a j = Ok y -> rank i x = rank j y -> i = j.
Proof.
  intros Hi Hj E. pose proof (rank_range i x Hi). pose proof (rank_range j y Hj).
  destruct (Z.lt_trichotomy x y) as [H1|[->|H1]].
  - pose proof (upto_below x y H1). lia.
  - destruct (Z.lt_trichotomy i j) as [H2|[H2|H2]]; [|exact H2|].
    + pose proof (earlier_lt i j y Hi H2). unfold rank in E. lia.
    + pose proof (earlier_lt j i y Hj H2). unfold rank in E. lia.
  - pose proof (upto_below y x H1). lia.
Qed.

Hypothesis a_fits : forall x, In x a -> x <= i32_max.

Lemma next_smallest_spec v : (exists x, In x a /\ v < x) ->
  In (next_smallest_value a v) a /\ v < next_smallest_value a v /\
  forall x, In x a -> v < x -> next_smallest_value a v <= x.
Proof.
  intros (x0 & Hx0 & Hlt). unfold next_smallest_value.
  destruct (fold_min_spec (map (fun x => if x >? v then x else i32_max) a) i32_max) as (H1 & H2 & H3).
  set (r := fold_left _ _ _) in *.
  assert (forall x, In x a -> v < x -> r <= x) as Hmin.
  { intros x Hx Hvx. apply H2. apply in_map_iff. exists x. split; [|exact Hx]. destruct (x >? v) eqn:E; [reflexivity|lia]. }
  assert (r <= x0) by auto. pose proof (a_fits x0 Hx0).
  assert (In r a /\ v < r); [|tauto].
  destruct H3 as [H3|H3].
  - assert (x0 = i32_max) as E by lia. rewrite H3, <- E. auto.
  - apply in_map_iff in H3 as (x & E & Hx). destruct (x >? v) eqn:Eg.
    + subst x. split; [exact Hx|lia].
    + assert (x0 = i32_max) as E' by lia. rewrite <- E, <- E'. auto.
Qed.

Definition loop_inv (perm : list Z) (value ndone : Z) (fan uniq : list Z) : Prop :=
  In value a /\ ndone = below value /\ zlen perm = zlen a /\
  (forall v, In v uniq <-> In v a /\ v < value) /\ StronglySorted Z.lt uniq /\
  zlen fan = zlen uniq + 1 /\ zget fan 0 = Ok 0 /\ zget fan (zlen uniq) = Ok ndone /\
  (forall g v, zget uniq g = Ok v -> zget fan g = Ok (below v) /\ zget fan (g + 1) = Ok (upto v)) /\
  (forall i x, zget a i = Ok x -> x < value -> zget perm i = Ok (rank i x)).

Definition final (perm fan uniq : list Z) : Prop :=
  zlen perm = zlen a /\ (forall v, In v uniq <-> In v a) /\ StronglySorted Z.lt uniq /\
  zlen fan = zlen uniq + 1 /\ zget fan 0 = Ok 0 /\ zget fan (zlen uniq) = Ok (zlen a) /\
  (forall g v, zget uniq g = Ok v -> zget fan g = Ok (below v) /\ zget fan (g + 1) = Ok (upto v)) /\
  (forall i x, zget a i = Ok x -> zget perm i = Ok (rank i x)).

Lemma sorted_snoc l x : StronglySorted Z.lt l -> (forall y, In y l -> y < x) -> StronglySorted Z.lt (l ++ [x]).
Proof.
  induction 1 as [|y l S IH F]; intros H; cbn; [repeat constructor|]. constructor; [apply IH; intros; apply H; right; assumption|].
  apply Forall_app. split; [exact F|]. constructor; [apply H; left; reflexivity|constructor].
Qed.

Lemma loop_spec : forall fuel perm value ndone fan uniq,
  loop_inv perm value ndone fan uniq -> zlen a - ndone <= Z.of_nat fuel ->
  exists p f u, small_range_loop fuel a perm value ndone fan uniq = Ok (p, f, u) /\ final p f u.
Proof.
  induction fuel as [|fuel IH]; intros perm value ndone fan uniq (I1 & I2 & I3 & I4 & I5 & I6 & I7 & I8 & I9 & I10) Hf.
  - exfalso. pose proof (upto_eq value). pose proof (count_total (fun x => x <=? value) a). fold (upto value) in *.
    assert (0 < same value) by (eapply count_pos; [exact I1|]; lia). lia.
  - cbn [small_range_loop]. destruct (number_same_values_spec value) as (t & Et & Lt & Gt). rewrite Et. cbn [bind fst snd].
    destruct (combine_perms_spec value t perm ndone Lt Gt I3) as (p & Ep & Lp & Gp & Fp). rewrite Ep. cbn [bind].
    assert (ndone + same value = upto value) as Hup by (rewrite upto_eq; lia). rewrite Hup.
    assert (forall v, In v (uniq ++ [value]) <-> In v a /\ v <= value) as U1.
    { intros v. rewrite in_app_iff, I4. cbn. split; [intros [[? ?]|[<-|[]]]; split; auto; lia|].
      intros [Hv Hle]. destruct (Z.eq_dec v value) as [->|]; [right; left; reflexivity|left; split; [exact Hv|lia]]. }
    assert (StronglySorted Z.lt (uniq ++ [value])) as U2 by (apply sorted_snoc; [exact I5|intros y Hy; apply I4 in Hy; lia]).
    assert (zlen (fan ++ [upto value]) = zlen (uniq ++ [value]) + 1) as U3 by (rewrite !zlen_app, I6; reflexivity).
    pose proof (zlen_nonneg uniq) as Hun.
    assert (zget (fan ++ [upto value]) 0 = Ok 0) as U4 by (rewrite zget_app_l by lia; exact I7).
    assert (zget (fan ++ [upto value]) (zlen (uniq ++ [value])) = Ok (upto value)) as U5.
    { rewrite zlen_app. change (zlen [value]) with 1. rewrite zget_app_r by lia. rewrite I6, Z.sub_diag. reflexivity. }
    assert (forall g v, zget (uniq ++ [value]) g = Ok v ->
       zget (fan ++ [upto value]) g = Ok (below v) /\ zget (fan ++ [upto value]) (g + 1) = Ok (upto v)) as U6.
    { intros g v Hg. pose proof (zget_bounds _ _ _ Hg) as Bg. rewrite zlen_app in Bg. change (zlen [value]) with 1 in Bg.
      destruct (Z.eq_dec g (zlen uniq)) as [->|Hne].
      - rewrite zget_app_r in Hg by lia. rewrite Z.sub_diag in Hg. cbn in Hg. injection Hg as <-. split.
        + rewrite zget_app_l by lia. rewrite I8. congruence.
        + rewrite zget_app_r by lia. rewrite I6, Z.sub_diag. reflexivity.
      - rewrite zget_app_l in Hg by lia. destruct (I9 g v Hg) as [G1 G2].
        rewrite !zget_app_l by lia. auto. }
    assert (forall i x, zget a i = Ok x -> x <= value -> zget p i = Ok (rank i x)) as U7.
    { intros i x Hx Hle. destruct (Z.eq_dec x value) as [->|Hne].
      - rewrite (Gp i Hx). f_equal. unfold rank. lia.
      - rewrite (Fp i x Hx Hne). apply I10; [exact Hx|lia]. }
    destruct (Z.eqb_spec (upto value) (zlen a)) as [Eq|Ne].
    + exists p, (fan ++ [upto value]), (uniq ++ [value]). split; [reflexivity|].
      assert (forall x, In x a -> x <= value) as Hall.
      { intros x Hx. pose proof (count_full _ _ Eq x Hx). cbn in *. lia. }
      split; [exact Lp|]. split; [intros v; rewrite U1; split; [tauto|intros H; split; [exact H|apply Hall, H]]|].
      split; [exact U2|]. split; [exact U3|]. split; [exact U4|]. split; [rewrite U5, Eq; reflexivity|]. split; [exact U6|].
      intros i x Hx. apply U7; [exact Hx|]. apply Hall. eapply zget_In; eauto.
    + assert (exists x, In x a /\ value < x) as Hex.
      { destruct (existsb (fun x => value <? x) a) eqn:Ex.
        - apply existsb_exists in Ex as (x & Hx & Hlt). exists x. split; [exact Hx|lia].
        - exfalso. apply Ne. apply count_all. intros x Hx. destruct (Z.leb_spec x value); [reflexivity|].
          assert (existsb (fun x => value <? x) a = true) by (apply existsb_exists; exists x; split; [exact Hx|lia]). congruence. }
      destruct (next_smallest_spec value Hex) as (N1 & N2 & N3). set (nv := next_smallest_value a value) in *.
      assert (upto value = below nv) as Hbn.
      { apply count_ext. intros x Hx. pose proof (N3 x Hx). destruct (Z.leb_spec x value), (Z.ltb_spec x nv); try reflexivity; lia. }
      assert (forall x, In x a -> x < nv -> x <= value) as Hbt.
      { intros x Hx Hlt. destruct (Z.le_gt_cases x value); [assumption|]. pose proof (N3 x Hx). lia. }
      apply IH.
      * split; [exact N1|]. split; [exact Hbn|]. split; [exact Lp|].
        split; [intros v; rewrite U1; split; intros [Hv Hle]; split; auto; try lia|].
        split; [exact U2|]. split; [exact U3|]. split; [exact U4|]. split; [exact U5|]. split; [exact U6|].
        intros i x Hx Hlt. apply U7; [exact Hx|]. apply Hbt; [eapply zget_In; eauto|exact Hlt].
      * assert (0 < same value) by (eapply count_pos; [exact I1|]; lia). lia.
Qed.

Lemma final_perm p f u : final p f u -> is_perm p.
Proof.
  intros (F1 & _ & _ & _ & _ & _ & _ & F8).
  assert (forall i b, zget p i = Ok b -> exists x, zget a i = Ok x /\ b = rank i x) as K.
  { intros i b Hb. pose proof (zget_bounds _ _ _ Hb) as B. rewrite F1 in B. destruct (zget_in_range a i B) as (x & Hx).
    exists x. split; [exact Hx|]. rewrite (F8 i x Hx) in Hb. congruence. }
  apply is_perm_intro.
  - apply NoDup_zget_inv. intros i j b Hi Hj. destruct (K i b Hi) as (x & Hx & E1). destruct (K j b Hj) as (y & Hy & E2).
    eapply rank_inj; eauto. congruence.
  - intros b Hb. apply In_zget in Hb as (i & Hi). destruct (K i b Hi) as (x & Hx & ->). rewrite F1.
    pose proof (rank_range i x Hx). pose proof (upto_le x). pose proof (count_nonneg (fun y => y <? x) a).
    fold (below x) in *. lia.
Qed.
End small.

Lemma strongly_sorted_zget l i j x y : StronglySorted Z.lt l -> zget l i = Ok x -> zget l j = Ok y -> i < j -> x < y.
Proof.
  intros HS. revert i j. induction HS as [|h l HS IH F]; intros i j Hi Hj Hlt.
  - apply zget_bounds in Hi. cbn in Hi. lia.
  - destruct (Z.eq_dec i 0) as [->|Hi0].
    + cbn in Hi. injection Hi as <-. apply zget_ok in Hj as [_ Hj].
      replace (Z.to_nat j) with (S (Z.to_nat (j - 1))) in Hj by lia. cbn in Hj. apply nth_error_In in Hj.
      eapply Forall_forall in F; eauto.
    + pose proof (zget_bounds _ _ _ Hi).
      assert (forall k z, 0 < k -> zget (h :: l) k = Ok z -> zget l (k - 1) = Ok z) as Q.
      { intros k z Hk Hz. apply zget_ok in Hz as [_ Hz]. replace (Z.to_nat k) with (S (Z.to_nat (k - 1))) in Hz by lia.
        cbn in Hz. apply zget_ok. split; [lia|exact Hz]. }
      eapply (IH (i - 1) (j - 1)); [apply Q; [lia|exact Hi]|apply Q; [lia|exact Hj]|lia].
Qed.

Lemma sort_small_range_final a : (forall x, In x a -> x <= i32_max) ->
  exists perm fan uniq, sort_small_range a = Ok (perm, fan, uniq) /\ final a perm fan uniq.
Proof.
  intros Hfit. unfold sort_small_range. destruct (Z.eqb_spec (zlen a) 0) as [E|Hne].
  - assert (a = []) as -> by (destruct a; [reflexivity|rewrite zlen_cons in E; pose proof (zlen_nonneg a); lia]).
    exists [], [0], []. split; [reflexivity|]. split; [reflexivity|]. split; [tauto|]. split; [constructor|].
    split; [reflexivity|]. split; [reflexivity|]. split; [reflexivity|].
    split; intros; match goal with H : zget [] _ = Ok _ |- _ => apply zget_bounds in H; cbn in H; lia end.
  - assert (a <> []) as Hnn by (intros ->; apply Hne; reflexivity).
    destruct (loop_spec a Hfit (length a) (repeat (-42) (length a)) (get_min a) 0 [0] []) as (p & f & u & E & Hfin).
    + assert (In (get_min a) a /\ forall x, In x a -> get_min a <= x) as [M1 M2].
      { unfold get_min. destruct (fold_min_spec a i32_max) as (H1 & H2 & H3). set (r := fold_left _ _ _) in *.
        split; [|exact H2]. destruct H3 as [H3|H3]; [|exact H3]. destruct a as [|x l]; [congruence|].
        pose proof (H2 x ltac:(left; reflexivity)). pose proof (Hfit x ltac:(left; reflexivity)).
        left. lia. }
      assert (below a (get_min a) = 0) as M3.
      { unfold below, count. replace (filter (fun x => x <? get_min a) a) with (@nil Z); [reflexivity|].
        assert (forall l, (forall x, In x l -> get_min a <= x) -> [] = filter (fun x => x <? get_min a) l) as Q.
        { induction l as [|x l IH]; intros H; [reflexivity|]. cbn. destruct (Z.ltb_spec x (get_min a)).
          - pose proof (H x ltac:(left; reflexivity)). lia.
          - apply IH. intros; apply H; right; assumption. }
        apply Q, M2. }
      split; [exact M1|]. split; [congruence|]. split; [unfold zlen; rewrite repeat_length; reflexivity|].
      split; [intros v; split; [intros []|intros [Hv Hlt]; specialize (M2 v Hv); lia]|]. split; [constructor|].
      split; [reflexivity|]. split; [reflexivity|]. split; [reflexivity|]. split; [intros g v H; apply zget_bounds in H; cbn in H; lia|].
      intros i x Hx Hlt. apply zget_In in Hx. specialize (M2 x Hx). lia.
    + unfold zlen. lia.
    + exists p, f, u. split; [exact E|exact Hfin].
Qed.

Lemma sort_small_range_spec a : (forall x, In x a -> x <= i32_max) ->
  exists perm fan uniq, sort_small_range a = Ok (perm, fan, uniq) /\
  zlen perm = zlen a /\ is_perm perm /\
  StronglySorted Z.lt uniq /\ (forall v, In v uniq <-> In v a) /\
  zlen fan = zlen uniq + 1 /\ zget fan 0 = Ok 0 /\ zget fan (zlen uniq) = Ok (zlen a) /\
  (forall i x b g, zget a i = Ok x -> zget perm i = Ok b -> (zget uniq g = Ok x <-> in_group fan g b)) /\
  (forall i j x y b c, zget a i = Ok x -> zget a j = Ok y -> zget perm i = Ok b -> zget perm j = Ok c ->
     (b < c <-> x < y \/ (x = y /\ i < j))).
Proof.
  intros Hfit. destruct (sort_small_range_final a Hfit) as (p & f & u & E & Hfin).
  exists p, f, u. split; [exact E|]. pose proof (final_perm a Hfit p f u Hfin) as Hp.
      destruct Hfin as (F1 & F2 & F3 & F4 & F5 & F6 & F7 & F8).
      split; [exact F1|]. split; [exact Hp|]. split; [exact F3|]. split; [exact F2|]. split; [exact F4|]. split; [exact F5|].
      split; [exact F6|]. split.
      * intros i x b g Hx Hb. rewrite (F8 i x Hx) in Hb. injection Hb as <-. pose proof (rank_range a i x Hx) as HR. split.
        -- intros Hg. destruct (F7 g x Hg) as [G1 G2]. exists (below a x), (upto a x). auto.
        -- intros (lo & hi & Hlo & Hhi & Hb).
           pose proof (zget_bounds _ _ _ Hlo). pose proof (zget_bounds _ _ _ Hhi).
           destruct (zget_in_range u g) as (v & Hv); [lia|]. destruct (F7 g v Hv) as [G1 G2].
           assert (v = x); [|congruence]. rewrite Hlo in G1. rewrite Hhi in G2. injection G1 as ->. injection G2 as ->.
           destruct (Z.lt_trichotomy v x) as [H1|[H1|H1]]; [|exact H1|].
           ++ pose proof (upto_below a v x H1). lia.
           ++ pose proof (upto_below a x v H1). lia.
      * intros i j x y b c Hx Hy Hb Hc. rewrite (F8 i x Hx) in Hb. rewrite (F8 j y Hy) in Hc. injection Hb as <-. injection Hc as <-.
        pose proof (rank_range a i x Hx) as R1. pose proof (rank_range a j y Hy) as R2.
        destruct (Z.lt_trichotomy x y) as [H1|[H1|H1]].
        -- pose proof (upto_below a x y H1). split; [left; exact H1|lia].
        -- subst y. unfold rank in *. destruct (Z.lt_trichotomy i j) as [H2|[H2|H2]].
           ++ pose proof (earlier_lt a i j x Hx H2). split; [right; split; [reflexivity|exact H2]|lia].
           ++ subst j. split; intros; lia.
           ++ pose proof (earlier_lt a j i x Hy H2). split; intros; lia.
        -- pose proof (upto_below a y x H1). split; intros; lia.
Qed.
