From Verif Require Import Prelude M_Array P_Array M_Par M_Scan M_Sort S_Sort P_Sort M_Map S_Map P_Map P_Map2 P_Fan P_Invert M_Graph S_Graph P_Graph M_Align P_Align M_Adj S_Adj.
Local Open Scope Z_scope.

Lemma fold_range_inv {S} (I : Z -> S -> Prop) lo hi s (f : S -> Z -> res S) : lo <= hi -> I lo s ->
  (forall i s, lo <= i < hi -> I i s -> exists s', f s i = Ok s' /\ I (i + 1) s') -> exists s', foldM f (zfromto lo hi) s = Ok s' /\ I hi s'.
Proof.
  intros Hle H0 HS. unfold zfromto. rewrite foldM_map.
  destruct (forM_invariant (fun k s => I (lo + k) s) (hi - lo) s (fun s k => f s (lo + k))) as (s' & E & H).
  - lia.
  - rewrite Z.add_0_r. exact H0.
  - intros i s1 Hi Hs1. destruct (HS (lo + i) s1 ltac:(lia) Hs1) as (s2 & E & H). exists s2. split; [exact E|]. rewrite Z.add_assoc. exact H.
  - exists s'. split; [exact E|]. replace hi with (lo + (hi - lo)) by lia. exact H.
Qed.

(** ** swapping *)
Definition swp (j k i : Z) : Z := if i =? j then k else if i =? k then j else i.
Lemma swp_inv j k i : swp j k (swp j k i) = i.
Proof. unfold swp. destruct (Z.eqb_spec i j) as [->|]; [destruct (Z.eqb_spec k j) as [->|]; [reflexivity|rewrite Z.eqb_refl; reflexivity]|]. destruct (Z.eqb_spec i k) as [->|]; [rewrite Z.eqb_refl; reflexivity|]. destruct (Z.eqb_spec i j); [lia|]. destruct (Z.eqb_spec i k); [lia|reflexivity]. Qed.
Lemma swap_entries_spec {A} (l : list A) j k : 0 <= j < zlen l -> 0 <= k < zlen l ->
  exists l', swap_entries l j k = Ok l' /\ zlen l' = zlen l /\ forall i, zget l' i = zget l (swp j k i).
Proof.
  intros Hj Hk. unfold swap_entries. destruct (zget_in_range l j Hj) as (x & Hx). destruct (zget_in_range l k Hk) as (y & Hy). rewrite Hx, Hy. cbn [bind].
  destruct (zset_in_range l j y Hj) as (l1 & E1). rewrite E1. cbn [bind]. pose proof (zset_zlen _ _ _ _ E1) as L1.
  destruct (zset_in_range l1 k x ltac:(lia)) as (l2 & E2). exists l2. split; [exact E2|]. pose proof (zset_zlen _ _ _ _ E2) as L2. split; [lia|].
  intros i. unfold swp. destruct (Z.eqb_spec i j) as [->|Hij].
  - destruct (Z.eq_dec j k) as [->|Hjk]; [rewrite (zset_get_eq _ _ _ _ E2); congruence|]. rewrite (zset_get_ne _ _ _ _ _ E2) by lia. rewrite (zset_get_eq _ _ _ _ E1). congruence.
  - destruct (Z.eqb_spec i k) as [->|Hik]; [rewrite (zset_get_eq _ _ _ _ E2); congruence|].
    rewrite (zset_get_ne _ _ _ _ _ E2) by lia. rewrite (zset_get_ne _ _ _ _ _ E1) by lia. reflexivity.
Qed.

(** the arrays are rearranged by one permutation of positions, which keeps every position in its group *)
Definition rearranged (same : Z -> Z -> Prop) (H C H' C' : list Z) : Prop :=
  exists s t, (forall i, s (t i) = i) /\ (forall i, t (s i) = i) /\ (forall i, same i (s i)) /\
  zlen H' = zlen H /\ zlen C' = zlen C /\ forall i, zget H' i = zget H (s i) /\ zget C' i = zget C (s i).

Lemma find_min_spec H j end_ : 0 <= j < end_ -> end_ <= zlen H ->
  exists k h, find_min_from H j end_ = Ok (k, h) /\ j <= k < end_ /\ zget H k = Ok h /\ forall i x, j <= i < end_ -> zget H i = Ok x -> h <= x.
Proof.
  intros Hj He. unfold find_min_from. destruct (zget_in_range H j ltac:(lia)) as (h0 & Hh0). rewrite Hh0. cbn [bind].
  destruct (fold_range_inv (fun k (m : Z * Z) => j <= fst m < k /\ zget H (fst m) = Ok (snd m) /\ forall i x, j <= i < k -> zget H i = Ok x -> snd m <= x)
    (j + 1) end_ (j, h0) (fun '(k_min, min_h) k => h <- zget H k ;; Ok (if h <? min_h then (k, h) else (k_min, min_h)))) as ((k & h) & E & K).
  - lia.
  - cbn [fst snd]. split; [lia|]. split; [exact Hh0|]. intros i x Hi Hx. assert (i = j) as -> by lia. assert (x = h0) by congruence. lia.
  - intros i [km mh] Hi (K1 & K2 & K3). cbn [fst snd] in *. destruct (zget_in_range H i ltac:(lia)) as (x & Hx). rewrite Hx. cbn [bind].
    eexists. split; [reflexivity|]. destruct (Z.ltb_spec x mh); cbn [fst snd].
    + split; [lia|]. split; [exact Hx|]. intros i' x' Hi' Hx'. destruct (Z.eq_dec i' i) as [->|]; [assert (x' = x) by congruence; lia|]. specialize (K3 i' x' ltac:(lia) Hx'). lia.
    + split; [lia|]. split; [exact K2|]. intros i' x' Hi' Hx'. destruct (Z.eq_dec i' i) as [->|]; [assert (x' = x) by congruence; lia|]. apply (K3 i' x' ltac:(lia) Hx').
  - exists k, h. split; [exact E|]. exact K.
Qed.

Definition sorted_on (H : list Z) (lo j hi : Z) : Prop := forall i i' x y, lo <= i < j -> i < i' < hi -> zget H i = Ok x -> zget H i' = Ok y -> x <= y.

Lemma sort_group (same : Z -> Z -> Prop) (H0 C0 H C : list Z) lo hi : (forall i, lo <= i < hi -> forall k, lo <= k < hi -> same i k) -> (forall i, same i i) -> (forall i j k, same i j -> same j k -> same i k) ->
  0 <= lo <= hi -> hi <= zlen H -> hi <= zlen C -> rearranged same H0 C0 H C ->
  exists H' C', foldM (fun '(lh2h, codes) j => m <- find_min_from lh2h j hi ;; lh2h <- swap_entries lh2h j (fst m) ;; codes <- swap_entries codes j (fst m) ;; Ok (lh2h, codes))
     (zfromto lo hi) (H, C) = Ok (H', C') /\ rearranged same H0 C0 H' C' /\ sorted_on H' lo hi hi /\ zlen H' = zlen H /\ zlen C' = zlen C /\
     forall i, ~ (lo <= i < hi) -> zget H' i = zget H i.
Proof.
  intros Hsame Hrefl Htrans Hlo HH HC HR.
  destruct (fold_range_inv (fun j (s : list Z * list Z) => let '(H', C') := s in rearranged same H0 C0 H' C' /\ sorted_on H' lo j hi /\ zlen H' = zlen H /\ zlen C' = zlen C /\
     forall i, ~ (lo <= i < hi) -> zget H' i = zget H i)
     lo hi (H, C) (fun '(lh2h, codes) j => m <- find_min_from lh2h j hi ;; lh2h <- swap_entries lh2h j (fst m) ;; codes <- swap_entries codes j (fst m) ;; Ok (lh2h, codes))) as ((H' & C') & E & K).
  - lia.
  - split; [exact HR|]. split; [intros i i' x y Hi; lia|auto].
  - intros j (H1 & C1) Hj (R1 & S1 & L1 & L2 & O1).
    destruct (find_min_spec H1 j hi ltac:(lia) ltac:(lia)) as (k & h & Em & Hk & Hh & Hmin). rewrite Em. cbn [bind fst].
    destruct (swap_entries_spec H1 j k ltac:(lia) ltac:(lia)) as (H2 & E2 & LH2 & G2). rewrite E2. cbn [bind].
    destruct (swap_entries_spec C1 j k ltac:(lia) ltac:(lia)) as (C2 & E3 & LC2 & G3). rewrite E3. cbn [bind].
    eexists. split; [reflexivity|]. cbv beta iota. split; [|split; [|split; [lia|split; [lia|]]]].
    + destruct R1 as (s & t & A1 & A2 & A3 & A4 & A5 & A6). exists (fun i => s (swp j k i)), (fun i => swp j k (t i)).
      split; [intros i; rewrite swp_inv; apply A1|]. split; [intros i; rewrite A2; apply swp_inv|]. split.
      { intros i. apply Htrans with (swp j k i); [|apply A3]. unfold swp. destruct (Z.eqb_spec i j) as [->|]; [apply Hsame; lia|]. destruct (Z.eqb_spec i k) as [->|]; [apply Hsame; lia|apply Hrefl]. }
      split; [lia|]. split; [lia|]. intros i. rewrite G2, G3. apply A6.
    + intros i i' x y Hi Hi' Hx Hy. rewrite G2 in Hx, Hy. unfold swp in Hx. destruct (Z.eqb_spec i j) as [->|].
      * assert (x = h) as -> by congruence. unfold swp in Hy. destruct (Z.eqb_spec i' j); [lia|]. destruct (Z.eqb_spec i' k) as [->|]; eapply Hmin; [|exact Hy| |exact Hy]; lia.
      * destruct (Z.eqb_spec i k) as [->|]; [lia|]. apply (S1 i (swp j k i') x y); [lia| |exact Hx|exact Hy].
        unfold swp. destruct (Z.eqb_spec i' j) as [->|]; [lia|]. destruct (Z.eqb_spec i' k); lia.
    + intros i Hi. rewrite G2. unfold swp. destruct (Z.eqb_spec i j) as [->|]; [lia|]. destruct (Z.eqb_spec i k) as [->|]; [lia|]. apply O1, Hi.
  - exists H', C'. split; [exact E|]. exact K.
Qed.

Definition same_group (f : list Z) (i j : Z) : Prop := i = j \/ exists a, in_group f a i /\ in_group f a j.

Lemma sort_by_high_spec f H C : is_fan f -> last_of f = Ok (zlen H) -> zlen C = zlen H ->
  exists H' C', sort_by_high_index f H C = Ok (H', C') /\ rearranged (same_group f) H C H' C' /\
  forall a i i' x y, in_group f a i -> in_group f a i' -> i < i' -> zget H' i = Ok x -> zget H' i' = Ok y -> x <= y.
Proof.
  intros Hf Hl HC. unfold sort_by_high_index.
  destruct (fan_last f Hf) as (n & _ & _ & H1).
  assert (forall i, same_group f i i) as Hrefl by (left; reflexivity).
  assert (forall i j k, same_group f i j -> same_group f j k -> same_group f i k) as Htrans.
  { intros i j k [->|(a & A1 & A2)] [->|(b & B1 & B2)]; [left; reflexivity|right; eauto|right; eauto|]. right. exists a. split; [exact A1|]. rewrite (in_group_unique f a b j Hf A2 B1). exact B2. }
  set (body := fun (s : list Z * list Z) l => begin <- zget f l ;; end_ <- zget f (l + 1) ;; _).
  destruct (forM_invariant (fun k (s : list Z * list Z) => let '(H', C') := s in rearranged (same_group f) H C H' C' /\ forall a lo hi, a < k -> zget f a = Ok lo -> zget f (a + 1) = Ok hi -> sorted_on H' lo hi hi)
     (zlen f - 1) (H, C) body) as ((H' & C') & E & R & K).
  - lia.
  - split; [|intros a lo hi Ha Hlo; apply zget_bounds in Hlo; lia]. exists (fun i => i), (fun i => i). repeat split; auto.
  - intros k (H2 & C2) Hk (R & K). unfold body. destruct (zget_in_range f k ltac:(lia)) as (lo & Hlo). destruct (zget_in_range f (k + 1) ltac:(lia)) as (hi & Hhi).
    rewrite Hlo, Hhi. cbn [bind]. pose proof (fan_mono f k (k + 1) lo hi Hf Hlo Hhi ltac:(lia)) as Q3. pose proof (fan_nonneg f k lo Hf Hlo) as Q4.
    pose proof (fan_mono f (k + 1) (zlen f - 1) hi (zlen H) Hf Hhi Hl ltac:(lia)) as Q5.
    assert (zlen H2 = zlen H /\ zlen C2 = zlen C) as [L2 L3] by (destruct R as (s & t & _ & _ & _ & A & B & _); auto).
    destruct (sort_group (same_group f) H C H2 C2 lo hi) as (H3 & C3 & E3 & R3 & S3 & L4 & L5 & O3); try assumption; try lia.
    { intros i Hi i' Hi'. right. exists k. split; exists lo, hi; auto. }
    exists (H3, C3). split; [exact E3|]. split; [exact R3|]. intros a lo' hi' Ha Hlo' Hhi'.
    destruct (Z.eq_dec a k) as [->|]; [assert (lo' = lo) by congruence; assert (hi' = hi) by congruence; subst; exact S3|].
    pose proof (fan_mono f (a + 1) k hi' lo Hf Hhi' Hlo ltac:(lia)). intros i i' x y Hi Hi' Hx Hy.
    rewrite O3 in Hx by lia. rewrite O3 in Hy by lia. eapply (K a lo' hi' ltac:(lia) Hlo' Hhi'); [| |exact Hx|exact Hy]; lia.
  - exists H', C'. split; [exact E|]. split; [exact R|]. intros a i i' x y (lo & hi & Hlo & Hhi & Hi) (lo' & hi' & Hlo' & Hhi' & Hi') Hlt Hx Hy.
    assert (lo' = lo) by congruence. assert (hi' = hi) by congruence. subst. pose proof (zget_bounds _ _ _ Hhi). eapply (K a lo hi ltac:(lia) Hlo Hhi i i' x y); [lia|lia|exact Hx|exact Hy].
Qed.

(** ** group lists *)
Lemma sorted_set_unique (l : list (Z * Z)) : forall m,
  (forall x, In x l <-> In x m) -> StronglySorted (fun p q => fst p < fst q) l -> StronglySorted (fun p q => fst p < fst q) m -> l = m.
Proof.
  induction l as [|x l IH]; intros m Hset Sl Sm.
  - destruct m as [|y m]; [reflexivity|]. destruct (proj2 (Hset y)); left; reflexivity.
  - destruct m as [|y m]; [destruct (proj1 (Hset x)); left; reflexivity|].
    inversion Sl as [|? ? Sl' Fl]; inversion Sm as [|? ? Sm' Fm]; subst. rewrite Forall_forall in Fl, Fm.
    assert (x = y) as ->.
    { destruct (proj1 (Hset x) ltac:(left; reflexivity)) as [H|H]; [auto|]. destruct (proj2 (Hset y) ltac:(left; reflexivity)) as [H'|H']; [auto|].
      pose proof (Fl _ H'). pose proof (Fm _ H). lia. }
    f_equal. apply IH; [|assumption..]. intros z. split; intros Hz.
    + destruct (proj1 (Hset z) ltac:(right; exact Hz)) as [->|H]; [specialize (Fl _ Hz); lia|exact H].
    + destruct (proj2 (Hset z) ltac:(right; exact Hz)) as [->|H]; [specialize (Fm _ Hz); lia|exact H].
Qed.


Lemma mapM_pairs (H C : list Z) js xs cs : mapM (zget H) js = Ok xs -> mapM (zget C) js = Ok cs ->
  forall p, In p (combine xs cs) <-> exists j, In j js /\ zget H j = Ok (fst p) /\ zget C j = Ok (snd p).
Proof.
  revert xs cs. induction js as [|j js IH]; intros xs cs E1 E2 p; cbn [mapM] in *.
  - assert (xs = []) as -> by congruence. cbn. split; [tauto|]. intros (j & [] & _).
  - apply bind_ok in E1 as (x & Hx & E1). apply bind_ok in E1 as (xs' & Hxs & E1). apply bind_ok in E2 as (c & Hc & E2). apply bind_ok in E2 as (cs' & Hcs & E2).
    assert (xs = x :: xs') as -> by congruence. assert (cs = c :: cs') as -> by congruence. cbn [combine In]. rewrite (IH xs' cs' Hxs Hcs p). split.
    + intros [<-|(k & A & B)]; [exists j; cbn; auto|exists k; split; [right; exact A|exact B]].
    + intros (k & [->|A] & B & D); [left|right; eauto]. destruct p as [p q]. cbn in *. congruence.
Qed.
Lemma mapM_pairs_sorted (H C : list Z) js : StronglySorted Z.lt js -> (forall i j x y, In i js -> In j js -> i < j -> zget H i = Ok x -> zget H j = Ok y -> x < y) ->
  forall xs cs, mapM (zget H) js = Ok xs -> mapM (zget C) js = Ok cs -> StronglySorted (fun p q => fst p < fst q) (combine xs cs).
Proof.
  intros Sj. induction Sj as [|j js Sj IH Fj]; intros K xs cs E1 E2; cbn [mapM] in *.
  - assert (xs = []) as -> by congruence. constructor.
  - apply bind_ok in E1 as (x & Hx & E1). apply bind_ok in E1 as (xs' & Hxs & E1). apply bind_ok in E2 as (c & Hc & E2). apply bind_ok in E2 as (cs' & Hcs & E2).
    assert (xs = x :: xs') as -> by congruence. assert (cs = c :: cs') as -> by congruence. cbn [combine]. constructor.
    + apply IH; [|assumption..]. intros i k u v Hi Hk. apply K; right; assumption.
    + apply Forall_forall. intros p Hp. apply (mapM_pairs H C js xs' cs' Hxs Hcs) in Hp as (k & Hk & Hpk & _). cbn [fst].
      rewrite Forall_forall in Fj. eapply (K j k); [left; reflexivity|right; exact Hk|apply Fj, Hk|exact Hx|exact Hpk].
Qed.

Lemma uses_of_in hl2l l hl : In hl (uses_of hl2l l) <-> zget hl2l hl = Ok l.
Proof.
  unfold uses_of. rewrite filter_In, in_zrange. split.
  - intros [_ H]. destruct (zget hl2l hl) as [x| |]; try discriminate. apply Z.eqb_eq in H. congruence.
  - intros H. split; [eapply zget_bounds; eassumption|]. rewrite H. apply Z.eqb_refl.
Qed.
Lemma uses_of_sorted hl2l l : StronglySorted Z.lt (uses_of hl2l l).
Proof. apply filter_sorted, zrange_sorted. Qed.


Lemma separate_spec lh2hl nl dc : 0 < nl -> (forall hl, In hl lh2hl -> 0 <= hl) ->
  (forall c, dc = Some c -> forall hl, In hl lh2hl -> hl < zlen c) ->
  separate_upward lh2hl nl dc = Ok (map (fun hl => hl / nl) lh2hl, map (use_code nl dc) lh2hl).
Proof.
  intros Hnl Hpos Hdc. unfold separate_upward. set (f := fun lh => hl <- zget lh2hl lh ;; _).
  assert (tabulate (zlen lh2hl) f = Ok (map (fun hl => (hl / nl, use_code nl dc hl)) lh2hl)) as ->.
  { apply tabulate_ok; [apply zlen_nonneg|]. split; [apply zlen_map|]. intros i Hi. destruct (zget_in_range lh2hl i Hi) as (hl & Hhl).
    pose proof (zget_In _ _ _ Hhl) as Hin. pose proof (Hpos hl Hin). exists (hl / nl, use_code nl dc hl). split; [|rewrite zget_map, Hhl; reflexivity].
    unfold f. rewrite Hhl. cbn [bind]. destruct (Z.eqb_spec nl 0); [lia|]. rewrite Z.quot_div_nonneg, Z.rem_mod_nonneg by lia. unfold use_code. destruct dc as [c|]; [|reflexivity].
    destruct (zget_in_range c hl) as (x & Hx); [split; [lia|apply Hdc; auto]|]. rewrite Hx. reflexivity. }
  cbn [bind]. rewrite !map_map. reflexivity.
Qed.

Lemma invert_adj_spec down nl nlows m0 s1 s2 : 0 < nl -> 0 <= nlows -> (forall l, In l (adj_ab2b down) -> 0 <= l < nlows) ->
  no_repeats (adj_ab2b down) nl -> (forall c, adj_codes down = Some c -> zlen c = zlen (adj_ab2b down)) ->
  exists o, invert_adj down nl nlows m0 s1 s2 = Ok o /\
  forall up, o = Some up -> wf_adj up /\ zlen (adj_a2ab up) = nlows + 1 /\
  forall l, 0 <= l < nlows ->
    adj_targets up l = Ok (map (fun hl => hl / nl) (uses_of (adj_ab2b down) l)) /\
    adj_target_codes up l = Ok (map (use_code nl (adj_codes down)) (uses_of (adj_ab2b down) l)).
Proof.
  intros Hnl Hn Hr HNR Hc. set (hl2l := adj_ab2b down) in *. unfold invert_adj. fold hl2l.
  destruct (invert_map_by_atomics_spec hl2l nlows m0 s1 s2 Hn Hr) as (o & E & Ho). rewrite E. cbn [bind].
  destruct o as [[[f lh2hl] m]|]; [|exists None; split; [reflexivity|discriminate]].
  destruct (Ho f lh2hl m eq_refl) as [(If & Lf & Lastf & Lb & Pb & Gb) _].
  assert (forall hl, In hl lh2hl <-> 0 <= hl < zlen hl2l) as Hin by (intros hl; rewrite (is_perm_in lh2hl hl Pb); lia).
  rewrite (separate_spec lh2hl nl (adj_codes down) Hnl); [|intros hl Hhl; apply Hin in Hhl; lia|intros c Ec hl Hhl; apply Hin in Hhl; rewrite (Hc c Ec); lia].
  cbn [bind fst snd]. set (H := map (fun hl => hl / nl) lh2hl). set (C := map (use_code nl (adj_codes down)) lh2hl).
  assert (last_of f = Ok (zlen H)) as HlH. { unfold last_of, H. rewrite zlen_map, Lb, Lf. replace (nlows + 1 - 1) with nlows by lia. exact Lastf. }
  destruct (sort_by_high_spec f H C If HlH ltac:(unfold H, C; rewrite !zlen_map; reflexivity)) as (H' & C' & Es & (s & t & A1 & A2 & A3 & A4 & A5 & A6) & HS).
  rewrite Es. cbn [bind fst snd]. eexists. split; [reflexivity|]. intros up Hup. assert (up = mk_adj f H' (Some C')) as -> by congruence. clear Hup.
  assert (zlen C' = zlen H') as LC by (rewrite A4, A5; unfold H, C; rewrite !zlen_map; reflexivity).
  split; [|split; [exact Lf|]].
  { split; [exact If|]. cbn [adj_a2ab adj_ab2b adj_codes]. split; [unfold last_of in HlH; rewrite A4; exact HlH|]. intros c Ec. assert (c = C') as -> by congruence. exact LC. }
  intros l Hl. unfold adj_targets, adj_target_codes, targets. cbn [adj_a2ab adj_ab2b adj_codes a2ab ab2b].
  destruct (zget_in_range f l ltac:(lia)) as (lo & Hlo). destruct (zget_in_range f (l + 1) ltac:(lia)) as (hi & Hhi). rewrite Hlo, Hhi. cbn [bind].
  pose proof (fan_nonneg f l lo If Hlo) as Hlo0. pose proof (fan_mono f l (l + 1) lo hi If Hlo Hhi ltac:(lia)) as Hlohi.
  pose proof (fan_mono f (l + 1) (zlen f - 1) hi (zlen H) If Hhi HlH ltac:(lia)) as HhiH.
  destruct (mapM_total (zget H') (zfromto lo hi)) as (xs & Exs). { intros i Hi. apply in_zfromto in Hi. apply zget_in_range. lia. }
  destruct (mapM_total (zget C') (zfromto lo hi)) as (cs & Ecs). { intros i Hi. apply in_zfromto in Hi. apply zget_in_range. lia. }
  assert (length xs = length cs) as Lxc by (rewrite (mapM_length _ _ _ Exs), (mapM_length _ _ _ Ecs); reflexivity).
  assert (forall i, lo <= i < hi -> in_group f l i) as Hgr by (intros i Hi; exists lo, hi; auto).
  assert (forall i, in_group f l i -> lo <= i < hi) as Hgr'. { intros i (lo' & hi' & B1 & B2 & B3). assert (lo' = lo) by congruence. assert (hi' = hi) by congruence. subst. exact B3. }
  assert (forall i, in_group f l i -> in_group f l (s i)) as Hs. { intros i Hi. destruct (A3 i) as [<-|(a & B1 & B2)]; [exact Hi|]. rewrite (in_group_unique f l a i If Hi B1). exact B2. }
  assert (forall i, in_group f l i -> in_group f l (t i)) as Ht. { intros i Hi. destruct (A3 (t i)) as [e|(a & B1 & B2)]; [rewrite A1 in e; rewrite e; exact Hi|]. rewrite A1 in B2. rewrite (in_group_unique f l a i If Hi B2). exact B1. }
  assert (forall i x, in_group f l i -> zget H' i = Ok x -> exists hl, zget lh2hl (s i) = Ok hl /\ zget hl2l hl = Ok l /\ x = hl / nl /\ zget C' i = Ok (use_code nl (adj_codes down) hl)) as Hent.
  { intros i x Hi Hx. destruct (A6 i) as [B1 B2]. rewrite B1 in Hx. unfold H in Hx. rewrite zget_map in Hx. apply bind_ok in Hx as (hl & Hhl & Ex). exists hl. split; [exact Hhl|].
    destruct (proj1 (Gb l (s i)) (Hs i Hi)) as (hl' & D1 & D2). assert (hl' = hl) as -> by congruence. split; [exact D2|]. split; [congruence|]. rewrite B2. unfold C. rewrite zget_map, Hhl. reflexivity. }
  set (U := uses_of hl2l l).
  assert (combine xs cs = map (fun hl => (hl / nl, use_code nl (adj_codes down) hl)) U) as Eq.
  { apply sorted_set_unique.
    - intros p. rewrite (mapM_pairs H' C' _ _ _ Exs Ecs p). rewrite in_map_iff. split.
      + intros (i & Hi & Hp1 & Hp2). apply in_zfromto in Hi. destruct (Hent i _ (Hgr i Hi) Hp1) as (hl & B1 & B2 & B3 & B4). exists hl. split; [destruct p as [p q]; cbn [fst snd] in *; congruence|]. apply uses_of_in, B2.
      + intros (hl & <- & Hhl). cbn [fst snd]. apply uses_of_in in Hhl. assert (In hl lh2hl) as Hin' by (apply Hin; eapply zget_bounds; eassumption). apply In_zget in Hin' as (i & Hi).
        assert (in_group f l i) as Hig by (apply Gb; eauto). exists (t i). split; [apply in_zfromto, Hgr', Ht, Hig|]. destruct (A6 (t i)) as [B1 B2]. rewrite A1 in B1, B2. rewrite B1, B2.
        unfold H, C. rewrite !zget_map, Hi. auto.
    - eapply mapM_pairs_sorted; [|  |exact Exs|exact Ecs].
      + clear. unfold zfromto. generalize (zrange_sorted (hi - lo)). generalize (zrange (hi - lo)). intros l0. induction 1 as [|x l0 HS IH F]; cbn; constructor; [exact IH|].
        apply Forall_forall. intros y Hy. apply in_map_iff in Hy as (z & <- & Hz). rewrite Forall_forall in F. specialize (F z Hz). lia.
      + intros i j x y Hi Hj Hij Hx Hy. apply in_zfromto in Hi, Hj. pose proof (HS l i j x y (Hgr i Hi) (Hgr j Hj) Hij Hx Hy) as Hle.
        destruct (Hent i x (Hgr i Hi) Hx) as (hl & B1 & B2 & B3 & _). destruct (Hent j y (Hgr j Hj) Hy) as (hl' & D1 & D2 & D3 & _).
        destruct (Z.eq_dec x y) as [e|]; [|lia]. exfalso. assert (hl = hl') as <- by (eapply HNR; [exact B2|exact D2|congruence]).
        pose proof (NoDup_zget lh2hl (s i) (s j) hl (is_perm_NoDup _ Pb) B1 D1) as Hsij. assert (t (s i) = t (s j)) as Ht' by congruence. rewrite !A2 in Ht'. lia.
    - assert (forall V, StronglySorted Z.lt V -> (forall hl, In hl V -> zget hl2l hl = Ok l) -> StronglySorted (fun p q : Z * Z => fst p < fst q) (map (fun hl => (hl / nl, use_code nl (adj_codes down) hl)) V)) as HV.
      { intros V SV. induction SV as [|x V SV IH F]; intros HV; cbn [map]; constructor; [apply IH; intros; apply HV; right; assumption|].
        apply Forall_forall. intros p Hp. apply in_map_iff in Hp as (y & <- & Hy). cbn [fst]. rewrite Forall_forall in F. specialize (F y Hy).
        pose proof (Z.div_le_mono x y nl Hnl ltac:(lia)). destruct (Z.eq_dec (x / nl) (y / nl)) as [e|]; [|lia].
        assert (x = y) by (eapply HNR; [apply HV; left; reflexivity|apply HV; right; exact Hy|exact e]). lia. }
      apply HV; [apply uses_of_sorted|]. intros hl. apply uses_of_in. }
  assert (map fst (combine xs cs) = xs /\ map snd (combine xs cs) = cs) as [M1 M2].
  { clear - Lxc. revert cs Lxc. induction xs as [|x xs IH]; intros [|c cs] L; try discriminate; [split; reflexivity|]. cbn in *. destruct (IH cs ltac:(lia)) as [-> ->]. split; reflexivity. }
  rewrite Eq, map_map in M1, M2. rewrite Exs, Ecs. split; f_equal; symmetry; [exact M1|exact M2].
Qed.

Lemma wf_adj_eq a b n : wf_adj a -> wf_adj b -> zlen (adj_a2ab a) = n + 1 -> zlen (adj_a2ab b) = n + 1 -> (exists c, adj_codes a = Some c) -> (exists c, adj_codes b = Some c) ->
  (forall l, 0 <= l < n -> exists t c, adj_targets a l = Ok t /\ adj_targets b l = Ok t /\ adj_target_codes a l = Ok c /\ adj_target_codes b l = Ok c) -> a = b.
Proof.
  destruct a as [fa ta ca], b as [fb tb cb]. unfold wf_adj, adj_targets, adj_target_codes. cbn [adj_a2ab adj_ab2b adj_codes].
  intros (A1 & A2 & A3) (B1 & B2 & B3) La Lb (c1 & ->) (c2 & ->) HT.
  assert (forall f t, is_fan f -> zget f (zlen f - 1) = Ok (zlen t) -> exists L, mk_graph f t = of_lists L) as W by (intros f t H1 H2; apply wf_lists; split; assumption).
  assert (forall f t g u, is_fan f -> zget f (zlen f - 1) = Ok (zlen t) -> is_fan g -> zget g (zlen g - 1) = Ok (zlen u) -> zlen f = n + 1 -> zlen g = n + 1 ->
     (forall l, 0 <= l < n -> exists x, targets (mk_graph f t) l = Ok x /\ targets (mk_graph g u) l = Ok x) -> f = g /\ t = u) as K.
  { intros f t g u H1 H2 H3 H4 H5 H6 H7. destruct (W f t H1 H2) as (L & EL), (W g u H3 H4) as (M & EM). rewrite EL, EM in H7.
    assert (zlen L = n) as LL. { rewrite <- nnodes_of_lists, <- EL. unfold nnodes. cbn [a2ab]. lia. }
    assert (zlen M = n) as LM. { rewrite <- nnodes_of_lists, <- EM. unfold nnodes. cbn [a2ab]. lia. }
    assert (L = M) as ->. { apply list_eq_zget; [lia|]. intros i Hi. destruct (H7 i ltac:(lia)) as (x & X1 & X2). apply targets_lists in X1, X2. congruence. }
    rewrite <- EM in EL. injection EL. auto. }
  destruct (K fa ta fb tb A1 A2 B1 B2 La Lb) as [-> ->]. { intros l Hl. destruct (HT l Hl) as (t & c & H1 & H2 & _). eauto. }
  destruct (K fb c1 fb c2 A1) as [_ ->]; try assumption; [rewrite (A3 c1 eq_refl); exact A2|rewrite (B3 c2 eq_refl); exact B2| |reflexivity].
  intros l Hl. destruct (HT l Hl) as (t & c & _ & _ & H1 & H2). eauto.
Qed.

Lemma invert_adj_deterministic down nl nlows m0 s1 s2 m0' s1' s2' up up' : 0 < nl -> 0 <= nlows -> (forall l, In l (adj_ab2b down) -> 0 <= l < nlows) ->
  no_repeats (adj_ab2b down) nl -> (forall c, adj_codes down = Some c -> zlen c = zlen (adj_ab2b down)) ->
  invert_adj down nl nlows m0 s1 s2 = Ok (Some up) -> invert_adj down nl nlows m0' s1' s2' = Ok (Some up') -> up = up'.
Proof.
  intros H1 H2 H3 H4 H5 E E'.
  destruct (invert_adj_spec down nl nlows m0 s1 s2 H1 H2 H3 H4 H5) as (o & Eo & K). destruct (invert_adj_spec down nl nlows m0' s1' s2' H1 H2 H3 H4 H5) as (o' & Eo' & K').
  destruct (K up ltac:(congruence)) as (W & L & G). destruct (K' up' ltac:(congruence)) as (W' & L' & G').
  assert (forall u m r1 r2, invert_adj down nl nlows m r1 r2 = Ok (Some u) -> exists c, adj_codes u = Some c) as HC.
  { intros u m r1 r2 Hu. unfold invert_adj in Hu. apply bind_ok in Hu as (x & _ & Hu). destruct x as [[[f l] mm]|]; [|discriminate]. apply bind_ok in Hu as (y & _ & Hu). apply bind_ok in Hu as (z & _ & Hu).
    assert (u = mk_adj f (fst z) (Some (snd z))) as -> by congruence. cbn. eauto. }
  apply (wf_adj_eq up up' nlows W W' L L' (HC _ _ _ _ E) (HC _ _ _ _ E')).
  intros l Hl. destruct (G l Hl) as [T1 T2], (G' l Hl) as [T3 T4]. eauto 10.
Qed.

Lemma use_code_fields nl dc hl : 0 < nl <= 16 -> 0 <= hl -> (forall c, dc = Some c -> hl < zlen c) ->
  code_which_down (use_code nl dc hl) = hl mod nl /\
  match dc with
  | Some c => exists x, zget c hl = Ok x /\ code_is_flipped (use_code nl dc hl) = code_is_flipped x /\ code_rotation (use_code nl dc hl) = code_rotation x
  | None => code_is_flipped (use_code nl dc hl) = false /\ code_rotation (use_code nl dc hl) = 0
  end.
Proof.
  intros Hnl Hhl Hc. pose proof (Z.mod_pos_bound hl nl ltac:(lia)) as Hm. unfold use_code. destruct dc as [c|].
  - destruct (zget_in_range c hl) as (x & Hx); [split; [lia|apply Hc; reflexivity]|]. rewrite Hx. pose proof (rot_range x).
    destruct (code_fields (code_is_flipped x) (code_rotation x) (hl mod nl)) as (A & B & D & _); [lia|lia|]. split; [exact D|]. exists x. auto.
  - destruct (code_fields false 0 (hl mod nl)) as (A & B & D & _); [lia|lia|]. auto.
Qed.

(** ** unmap_adjacency *)
Lemma foldM_pair {A S T} (f : S -> A -> res S) (g : T -> A -> res T) l : forall s t s' t', foldM f l s = Ok s' -> foldM g l t = Ok t' ->
  foldM (fun p a => x <- f (fst p) a ;; y <- g (snd p) a ;; Ok (x, y)) l (s, t) = Ok (s', t').
Proof.
  induction l as [|a l IH]; intros s t s' t' E1 E2; cbn [foldM] in *; [congruence|].
  apply bind_ok in E1 as (s1 & H1 & E1). apply bind_ok in E2 as (t1 & H2 & E2). cbn [fst snd]. rewrite H1. cbn [bind]. rewrite H2. cbn [bind]. apply IH; assumption.
Qed.

Lemma foldM_pair_eq {A S T} (h : S * T -> A -> res (S * T)) (f : S -> A -> res S) (g : T -> A -> res T) l :
  (forall s t a s' t', f s a = Ok s' -> g t a = Ok t' -> h (s, t) a = Ok (s', t')) ->
  forall s t s' t', foldM f l s = Ok s' -> foldM g l t = Ok t' -> foldM h l (s, t) = Ok (s', t').
Proof.
  intros Hh. induction l as [|a l IH]; intros s t s' t' E1 E2; cbn [foldM] in *; [congruence|].
  apply bind_ok in E1 as (s1 & H1 & E1). apply bind_ok in E2 as (t1 & H2 & E2). rewrite (Hh s t a s1 t1 H1 H2). cbn [bind]. apply IH; assumption.
Qed.

Lemma unmap_adjacency_graphs a2b f t c g1 g2 : unmap_graph a2b (mk_graph f t) = Ok g1 -> unmap_graph a2b (mk_graph f c) = Ok g2 ->
  a2ab g1 = a2ab g2 /\ unmap_adjacency a2b (mk_adj f t (Some c)) = Ok (mk_adj (a2ab g1) (ab2b g1) (Some (ab2b g2))).
Proof.
  unfold unmap_graph, unmap_adjacency. cbn [a2ab ab2b adj_a2ab adj_ab2b adj_codes]. intros E1 E2.
  apply bind_ok in E1 as (bd & Ebd & E1). rewrite Ebd in E2. cbn [bind] in E2.
  apply bind_ok in E1 as (ad & Ead & E1). rewrite Ead in E2. cbn [bind] in E2.
  apply bind_ok in E1 as (nac & En & E1). rewrite En in E2. cbn [bind] in E2.
  apply bind_ok in E1 as (b & Eb & E1). rewrite Eb in E2. cbn [bind] in E2.
  apply bind_ok in E1 as (d1 & F1 & E1). apply bind_ok in E2 as (d2 & F2 & E2).
  apply bind_ok in E1 as (x1 & Z1 & E1). apply bind_ok in E2 as (x2 & Z2 & E2).
  assert (g1 = mk_graph (offset_scan ad) x1) as -> by congruence. assert (g2 = mk_graph (offset_scan ad) x2) as -> by congruence. cbn [a2ab ab2b]. split; [reflexivity|].
  rewrite Ebd. cbn [bind]. rewrite Ead. cbn [bind]. rewrite En. cbn [bind]. rewrite Eb. cbn [bind].
  match goal with |- bind ?X _ = _ => assert (X = Ok (d1, d2)) as -> end; [|cbn [bind fst snd]; rewrite Z1; cbn [bind]; rewrite Z2; reflexivity].
  eapply foldM_pair_eq; [|exact F1|exact F2]. cbv beta. intros s s0 a s' t' H1 H2.
  apply bind_ok in H1 as (v1 & V1 & H1). rewrite V1 in *. cbn [bind] in *. apply bind_ok in H1 as (v2 & V2 & H1). rewrite V2 in *. cbn [bind] in *.
  apply bind_ok in H1 as (v3 & V3 & H1). rewrite V3 in *. cbn [bind] in *. apply bind_ok in H1 as (v4 & V4 & H1). rewrite V4 in *. cbn [bind] in *.
  eapply foldM_pair_eq; [|exact H1|exact H2]. cbv beta. intros p q i p' q' P1 P2.
  apply bind_ok in P1 as (y1 & Y1 & P1). apply bind_ok in P2 as (y2 & Y2 & P2). rewrite Y1. cbn [bind fst snd]. rewrite P1. cbn [bind]. rewrite Y2. cbn [bind]. rewrite P2. reflexivity.
Qed.

Lemma unmap_adjacency_spec a2b b2c c : wf_adj b2c -> adj_codes b2c = Some c -> (forall b, In b a2b -> 0 <= b < zlen (adj_a2ab b2c) - 1) ->
  exists a2c, unmap_adjacency a2b b2c = Ok a2c /\ wf_adj a2c /\ zlen (adj_a2ab a2c) = zlen a2b + 1 /\
  forall a b, zget a2b a = Ok b -> adj_targets a2c a = adj_targets b2c b /\ adj_target_codes a2c a = adj_target_codes b2c b.
Proof.
  destruct b2c as [f t co]. cbn [adj_codes adj_a2ab]. intros (W1 & W2 & W3) -> Hr. cbn [adj_a2ab adj_ab2b adj_codes] in *.
  specialize (W3 c eq_refl). assert (wf_graph (mk_graph f t)) as G1 by (split; [exact W1|exact W2]). assert (wf_graph (mk_graph f c)) as G2 by (split; [exact W1|cbn [a2ab ab2b]; unfold last_of; rewrite W3; exact W2]).
  destruct (unmap_graph_spec a2b (mk_graph f t)) as (g1 & E1 & Wg1 & N1 & T1); [exact G1|exact Hr|].
  destruct (unmap_graph_spec a2b (mk_graph f c)) as (g2 & E2 & Wg2 & N2 & T2); [exact G2|exact Hr|].
  destruct (unmap_adjacency_graphs a2b f t c g1 g2 E1 E2) as [Ea E]. eexists. split; [exact E|].
  destruct g1 as [f1 t1], g2 as [f2 t2]. cbn [a2ab ab2b] in *. subst f2. unfold nnodes in N1. cbn [a2ab] in N1.
  split; [|split; [cbn [adj_a2ab]; lia|]].
  - destruct Wg1 as [X1 X2], Wg2 as [Y1 Y2]. cbn [a2ab ab2b] in *. split; [exact X1|]. cbn [adj_a2ab adj_ab2b adj_codes]. split; [exact X2|]. intros c' Ec. assert (c' = t2) as -> by congruence. congruence.
  - intros a b Hb. unfold adj_targets, adj_target_codes. cbn [adj_a2ab adj_ab2b adj_codes]. split; [apply T1, Hb|apply T2, Hb].
Qed.
