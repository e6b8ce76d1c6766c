From Verif Require Import Prelude M_Array P_Array M_Scan S_Scan M_Sort P_Sort M_Map S_Map P_Map P_Map2 S_Fan P_Fan M_Graph S_Graph P_Graph M_Mark S_Mark.
Local Open Scope Z_scope.

Lemma truth_spec m : truth m = true <-> m <> 0.
Proof. unfold truth. destruct (Z.eqb_spec m 0); cbn; intuition congruence. Qed.

(** the inner loops: the mark is set when one of the visited entries is set *)
Lemma or_fold (get : Z -> res Z) l : (forall i, In i l -> exists m, get i = Ok m) -> forall s,
  exists r, foldM (fun out i => m <- get i ;; Ok (if truth m then 1 else out)) l s = Ok r /\
  ((r = 1 /\ exists i m, In i l /\ get i = Ok m /\ m <> 0) \/ (r = s /\ forall i m, In i l -> get i = Ok m -> m = 0)).
Proof.
  induction l as [|i l IH]; intros Hg s; [exists s; split; [reflexivity|]; right; split; [reflexivity|intros ? ? []]|].
  destruct (Hg i (or_introl eq_refl)) as (m & Em). cbn [foldM]. rewrite Em. cbn [bind].
  destruct (IH ltac:(intros; apply Hg; right; auto) (if truth m then 1 else s)) as (r & E & Hr). exists r. split; [exact E|].
  destruct Hr as [(-> & j & m' & Hj & Em' & Hne)|(-> & Hz)].
  - left. split; [reflexivity|]. exists j, m'. split; [right; exact Hj|auto].
  - destruct (truth m) eqn:T.
    + left. split; [reflexivity|]. exists i, m. split; [left; reflexivity|]. split; [exact Em|]. apply truth_spec, T.
    + right. split; [reflexivity|]. intros j m' [<-|Hj] Em'; [|eauto]. rewrite Em in Em'. injection Em' as <-. unfold truth in T. destruct (Z.eqb_spec m 0); [assumption|discriminate].
Qed.
Lemma and_fold (get : Z -> res Z) l : (forall i, In i l -> exists m, get i = Ok m) -> forall s,
  exists r, foldM (fun out i => m <- get i ;; Ok (if negb (truth m) then false else out)) l s = Ok r /\
  (r = true <-> s = true /\ forall i m, In i l -> get i = Ok m -> m <> 0).
Proof.
  induction l as [|i l IH]; intros Hg s; [exists s; split; [reflexivity|]; intuition|].
  destruct (Hg i (or_introl eq_refl)) as (m & Em). cbn [foldM]. rewrite Em. cbn [bind].
  destruct (IH ltac:(intros; apply Hg; right; auto) (if negb (truth m) then false else s)) as (r & E & Hr). exists r. split; [exact E|]. rewrite Hr. cbn [In].
  destruct (truth m) eqn:T; cbn [negb].
  - apply truth_spec in T. split; intros [-> K]; (split; [reflexivity|]).
    + intros j m' [<-|Hj] Em'; [congruence|]. exact (K j m' Hj Em').
    + intros j m' Hj Em'. exact (K j m' (or_intror Hj) Em').
  - split; [intros [K _]; discriminate|]. intros [-> K]. exfalso. apply (K i m (or_introl eq_refl) Em). unfold truth in T. destruct (Z.eqb_spec m 0); [assumption|discriminate].
Qed.
Lemma foldM_ext' {A S} (f g : S -> A -> res S) l : (forall s x, In x l -> f s x = g s x) -> forall s, foldM f l s = foldM g l s.
Proof. induction l as [|x l IH]; intros H s; [reflexivity|]. cbn [foldM]. rewrite (H s x (or_introl eq_refl)). destruct (g s x); cbn [bind]; auto. apply IH. intros; apply H; right; auto. Qed.

Lemma tabulate_says {A} n (f : Z -> res A) (P : Z -> A -> Prop) : 0 <= n -> (forall i, 0 <= i < n -> exists x, f i = Ok x /\ P i x) ->
  exists r, tabulate n f = Ok r /\ zlen r = n /\ forall i, 0 <= i < n -> exists x, zget r i = Ok x /\ P i x.
Proof.
  intros Hn H. destruct (mapM_total f (zrange n)) as (r & E).
  { intros i Hi. apply in_zrange in Hi. destruct (H i Hi) as (x & -> & _). eauto. }
  exists r. split; [exact E|]. apply (tabulate_ok n f r Hn) in E as [E1 E2]. split; [exact E1|].
  intros i Hi. destruct (E2 i Hi) as (x & X1 & X2). destruct (H i Hi) as (y & Y1 & Y2). assert (x = y) as <- by congruence. eauto.
Qed.

Lemma exposed_spec s2sc : is_fan s2sc -> exists r, mark_exposed_sides s2sc = Ok r /\ zlen r = zlen s2sc - 1 /\
  forall s lo hi, zget s2sc s = Ok lo -> zget s2sc (s + 1) = Ok hi -> says r s (hi - lo < 2).
Proof.
  intros Hf. pose proof (zget_bounds _ _ _ (proj1 Hf)) as B. unfold mark_exposed_sides.
  destruct (tabulate_says (zlen s2sc - 1) (fun s => lo <- zget s2sc s ;; hi <- zget s2sc (s + 1) ;; Ok (mark (hi - lo <? 2)))
    (fun s x => exists lo hi, zget s2sc s = Ok lo /\ zget s2sc (s + 1) = Ok hi /\ x = mark (hi - lo <? 2))) as (r & E & L & G); [lia| |].
  - intros i Hi. destruct (zget_in_range s2sc i ltac:(lia)) as (lo & Hlo). destruct (zget_in_range s2sc (i + 1) ltac:(lia)) as (hi & Hhi). rewrite Hlo, Hhi. cbn [bind]. eexists. split; [reflexivity|]. eauto.
  - exists r. split; [exact E|]. split; [exact L|]. intros s lo hi Hlo Hhi. pose proof (zget_bounds _ _ _ Hlo). pose proof (zget_bounds _ _ _ Hhi).
    destruct (G s ltac:(lia)) as (x & Hx & lo' & hi' & A1 & A2 & ->). assert (lo' = lo) as -> by congruence. assert (hi' = hi) as -> by congruence.
    unfold says. rewrite Hx. destruct (Z.ltb_spec (hi - lo) 2); cbn [mark]; [left|right]; split; auto; lia.
Qed.

Lemma targets_split g v ts : targets g v = Ok ts -> exists lo hi, zget (a2ab g) v = Ok lo /\ zget (a2ab g) (v + 1) = Ok hi /\ mapM (zget (ab2b g)) (zfromto lo hi) = Ok ts.
Proof. unfold targets. intros H. apply bind_ok in H as (lo & H1 & H). apply bind_ok in H as (hi & H2 & H). eauto. Qed.
Lemma mapM_in {A B} (f : A -> res B) l r x : mapM f l = Ok r -> In x l -> exists y, f x = Ok y /\ In y r.
Proof.
  intros E. apply mapM_ok in E. induction E as [|a b l r H _ IH]; [intros []|]. intros [<-|Hx]; [exists b; split; [exact H|left; reflexivity]|].
  destruct (IH Hx) as (y & Y1 & Y2). exists y. split; [exact Y1|right; exact Y2].
Qed.
Lemma mapM_in_inv {A B} (f : A -> res B) l r y : mapM f l = Ok r -> In y r -> exists x, f x = Ok y /\ In x l.
Proof.
  intros E. apply mapM_ok in E. induction E as [|a b l r H _ IH]; [intros []|]. intros [<-|Hy]; [exists a; split; [exact H|left; reflexivity]|].
  destruct (IH Hy) as (x & X1 & X2). exists x. split; [exact X1|right; exact X2].
Qed.

Definition tells (P : Prop) (x : Z) : Prop := (x = 1 /\ P) \/ (x = 0 /\ ~ P).
Lemma says_of r i P x : zget r i = Ok x -> tells P x -> says r i P.
Proof. intros E [[-> H]|[-> H]]; [left|right]; auto. Qed.
Lemma tells_iff P Q x : (P <-> Q) -> tells P x -> tells Q x.
Proof. intros H [[-> K]|[-> K]]; [left|right]; split; tauto. Qed.
Lemma says_iff r i P Q : (P <-> Q) -> says r i P -> says r i Q.
Proof. intros H [[E K]|[E K]]; [left|right]; split; tauto. Qed.
Lemma says_marked r i P : says r i P -> (marked r i <-> P).
Proof. intros [[E K]|[E K]]; unfold marked; split; intros H; auto; [exists 1; split; [exact E|lia]| |contradiction]. destruct H as (m & Em & Hm). congruence. Qed.

Lemma mark_down_spec g hm : wf_graph g -> (forall h, In h (ab2b g) -> 0 <= h < zlen hm) ->
  exists r, mark_down g hm = Ok r /\ zlen r = nnodes g /\ forall l, 0 <= l < nnodes g -> says r l (exists h, edge g l h /\ marked hm h).
Proof.
  intros Hg Hh. pose proof (zget_bounds _ _ _ (proj1 (proj1 Hg))) as B. unfold mark_down. fold (nnodes g).
  assert (0 <= nnodes g) as Hn by (unfold nnodes; lia).
  destruct (tabulate_says (nnodes g) (fun l => lo <- zget (a2ab g) l ;; hi <- zget (a2ab g) (l + 1) ;;
    foldM (fun out lh => h <- zget (ab2b g) lh ;; m <- zget hm h ;; Ok (if truth m then 1 else out)) (zfromto lo hi) 0)
    (fun l => tells (exists h, edge g l h /\ marked hm h)) Hn) as (r & E & L & G).
  - intros l Hl. destruct (wf_targets g l Hg Hl) as (ts & Ht). destruct (targets_split g l ts Ht) as (lo & hi & E1 & E2 & E3). rewrite E1, E2. cbn [bind].
    rewrite (foldM_ext' _ (fun out lh => m <- (h <- zget (ab2b g) lh ;; zget hm h) ;; Ok (if truth m then 1 else out))).
    2: { intros s x _. destruct (zget (ab2b g) x); reflexivity. }
    destruct (or_fold (fun lh => h <- zget (ab2b g) lh ;; zget hm h) (zfromto lo hi)) with (s := 0) as (x & Ex & Hx).
    { intros i Hi. destruct (mapM_in _ _ _ _ E3 Hi) as (h & Eh & _). rewrite Eh. cbn [bind]. apply zget_in_range, Hh. eapply zget_In, Eh. }
    exists x. split; [exact Ex|]. destruct Hx as [(-> & i & m & Hi & Em & Hm)|(-> & Hz)].
    + left. split; [reflexivity|]. destruct (mapM_in _ _ _ _ E3 Hi) as (h & Eh & Hin). rewrite Eh in Em. cbn [bind] in Em. exists h. split; [exists ts; auto|exists m; auto].
    + right. split; [reflexivity|]. intros (h & (ts' & Ht' & Hin) & m & Em & Hm). assert (ts' = ts) as -> by congruence. destruct (mapM_in_inv _ _ _ _ E3 Hin) as (i & Ei & Hi).
      apply Hm, (Hz i m Hi). rewrite Ei. exact Em.
  - exists r. split; [exact E|]. split; [exact L|]. intros l Hl. destruct (G l Hl) as (x & X1 & X2). exact (says_of _ _ _ _ X1 X2).
Qed.

Lemma low_entry (hl2l : list Z) deg nh (lm : list Z) : 0 <= deg -> zlen hl2l = nh * deg -> (forall l, In l hl2l -> 0 <= l < zlen lm) -> forall h i, 0 <= h < nh -> 0 <= i < deg ->
  exists l m, zget hl2l (h * deg + i) = Ok l /\ zget lm l = Ok m.
Proof.
  intros Hd Hl Hr h i Hh Hi. destruct (zget_in_range hl2l (h * deg + i) ltac:(nia)) as (l & El). destruct (zget_in_range lm l ltac:(apply Hr; eapply zget_In, El)) as (m & Em). eauto.
Qed.
Lemma mark_up_spec hl2l deg nh lm : 0 <= nh -> 0 <= deg -> zlen hl2l = nh * deg -> (forall l, In l hl2l -> 0 <= l < zlen lm) ->
  exists r, mark_up hl2l deg nh lm = Ok r /\ zlen r = nh /\ forall h, 0 <= h < nh -> says r h (exists i l, 0 <= i < deg /\ zget hl2l (h * deg + i) = Ok l /\ marked lm l).
Proof.
  intros Hn Hd Hl Hr. unfold mark_up.
  destruct (tabulate_says nh (fun h => forM deg 0 (fun out hhl => l <- zget hl2l (h * deg + hhl) ;; m <- zget lm l ;; Ok (if truth m then 1 else out)))
    (fun h => tells (exists i l, 0 <= i < deg /\ zget hl2l (h * deg + i) = Ok l /\ marked lm l)) Hn) as (r & E & L & G).
  - intros h Hh. pose proof (low_entry hl2l deg nh lm Hd Hl Hr h) as LE. unfold forM.
    rewrite (foldM_ext' _ (fun out hhl => m <- (l <- zget hl2l (h * deg + hhl) ;; zget lm l) ;; Ok (if truth m then 1 else out))).
    2: { intros s x _. destruct (zget hl2l (h * deg + x)); reflexivity. }
    destruct (or_fold (fun hhl => l <- zget hl2l (h * deg + hhl) ;; zget lm l) (zrange deg)) with (s := 0) as (x & Ex & Hx).
    { intros i Hi. apply in_zrange in Hi. destruct (LE i Hh Hi) as (l & m & El & Em). rewrite El. cbn [bind]. eauto. }
    exists x. split; [exact Ex|]. destruct Hx as [(-> & i & m & Hi & Em & Hm)|(-> & Hz)].
    + left. split; [reflexivity|]. apply in_zrange in Hi. destruct (LE i Hh Hi) as (l & m' & El & _). rewrite El in Em. exists i, l. split; [exact Hi|]. split; [exact El|]. exists m. auto.
    + right. split; [reflexivity|]. intros (i & l & Hi & El & m & Em & Hm). apply Hm, (Hz i m); [apply in_zrange, Hi|]. rewrite El. exact Em.
  - exists r. split; [exact E|]. split; [exact L|]. intros l Hl'. destruct (G l Hl') as (x & X1 & X2). exact (says_of _ _ _ _ X1 X2).
Qed.
Lemma mark_up_all_spec hl2l deg nh lm : 0 <= nh -> 0 <= deg -> zlen hl2l = nh * deg -> (forall l, In l hl2l -> 0 <= l < zlen lm) ->
  exists r, mark_up_all hl2l deg nh lm = Ok r /\ zlen r = nh /\ forall h, 0 <= h < nh -> says r h (forall i l, 0 <= i < deg -> zget hl2l (h * deg + i) = Ok l -> marked lm l).
Proof.
  intros Hn Hd Hl Hr. unfold mark_up_all.
  destruct (tabulate_says nh (fun h => all_marked <- forM deg true (fun all_marked hhl => l <- zget hl2l (h * deg + hhl) ;; m <- zget lm l ;; Ok (if negb (truth m) then false else all_marked)) ;; Ok (mark all_marked))
    (fun h => tells (forall i l, 0 <= i < deg -> zget hl2l (h * deg + i) = Ok l -> marked lm l)) Hn) as (r & E & L & G).
  - intros h Hh. pose proof (low_entry hl2l deg nh lm Hd Hl Hr h) as LE. unfold forM.
    rewrite (foldM_ext' _ (fun out hhl => m <- (l <- zget hl2l (h * deg + hhl) ;; zget lm l) ;; Ok (if negb (truth m) then false else out))).
    2: { intros s x _. destruct (zget hl2l (h * deg + x)); reflexivity. }
    destruct (and_fold (fun hhl => l <- zget hl2l (h * deg + hhl) ;; zget lm l) (zrange deg)) with (s := true) as (x & Ex & Hx).
    { intros i Hi. apply in_zrange in Hi. destruct (LE i Hh Hi) as (l & m & El & Em). rewrite El. cbn [bind]. eauto. }
    rewrite Ex. cbn [bind]. eexists. split; [reflexivity|].
    assert (x = true <-> (forall i l, 0 <= i < deg -> zget hl2l (h * deg + i) = Ok l -> marked lm l)) as K.
    { rewrite Hx. split.
      - intros [_ H] i l Hi El. destruct (LE i Hh Hi) as (l' & m & El' & Em). assert (l' = l) as -> by congruence. exists m. split; [exact Em|]. apply (H i m); [apply in_zrange, Hi|]. rewrite El. exact Em.
      - intros H. split; [reflexivity|]. intros i m Hi Em. apply in_zrange in Hi. destruct (LE i Hh Hi) as (l & m' & El & Em'). rewrite El in Em. cbn [bind] in Em. destruct (H i l Hi El) as (m2 & E2 & H2). congruence. }
    destruct x; [left|right]; (split; [reflexivity|]); [apply K; reflexivity|]. intros H. apply K in H. discriminate.
  - exists r. split; [exact E|]. split; [exact L|]. intros l Hl'. destruct (G l Hl') as (x & X1 & X2). exact (says_of _ _ _ _ X1 X2).
Qed.

(** ** binary search *)
Lemma search_loop_spec a v : increasing a -> forall fuel l r, 0 <= l -> r < zlen a -> l + r <= lo_max -> r <= lo_max / 2 -> (Z.to_nat (r - l + 1) < fuel)%nat ->
  (forall i, zget a i = Ok v -> l <= i <= r) ->
  exists i, search_loop fuel a v l r = Ok i /\ ((i = -1 /\ ~ In v a) \/ zget a i = Ok v).
Proof.
  intros Hs. induction fuel as [|fuel IH]; intros l r Hl Hr Hm Hm2 Hf Hv; [lia|]. cbn [search_loop]. destruct (Z.ltb_spec r l) as [K|K].
  { exists (-1). split; [reflexivity|]. left. split; [reflexivity|]. intros Hin. apply In_zget in Hin as (i & Ei). specialize (Hv i Ei). lia. }
  destruct (Z.ltb_spec lo_max (l + r)); [lia|]. set (m := Z.quot (l + r) 2). assert (l <= m <= r) as Bm by (unfold m; rewrite Z.quot_div_nonneg by lia; lia).
  clearbody m. change (lo_max / 2) with 1073741823 in *. unfold lo_max in *.
  destruct (zget_in_range a m ltac:(lia)) as (x & Ex). rewrite Ex. cbn [bind]. destruct (Z.ltb_spec x v); [|destruct (Z.ltb_spec v x)].
  - apply IH; try lia. intros i Ei. specialize (Hv i Ei). destruct (Z.le_gt_cases i m) as [C|C]; [|lia]. pose proof (Hs i m v x Ei Ex C). lia.
  - apply IH; try lia. intros i Ei. specialize (Hv i Ei). destruct (Z.le_gt_cases m i) as [C|C]; [|lia]. pose proof (Hs m i x v Ex Ei C). lia.
  - exists m. split; [reflexivity|]. right. rewrite Ex. f_equal. lia.
Qed.
Lemma binary_search_spec a v : increasing a -> zlen a <= 1073741824 ->
  exists i, binary_search a v (zlen a) = Ok i /\ ((i = -1 /\ ~ In v a) \/ zget a i = Ok v).
Proof.
  intros Hs Hn. pose proof (zlen_nonneg a). unfold binary_search. apply search_loop_spec; [exact Hs|lia|lia| | |lia|]; [unfold lo_max; lia|change (lo_max / 2) with 1073741823; lia|].
  intros i Ei. apply zget_bounds in Ei. lia.
Qed.
(** with more than 2^30 entries the midpoint overflows: searching for something beyond the middle *)
Lemma binary_search_overflow a v : 1073741825 <= zlen a -> (forall i x, 0 <= i < zlen a -> zget a i = Ok x -> x < v) -> zlen a <= lo_max -> binary_search a v (zlen a) = UB.
Proof.
  intros Hn Hx Hm. unfold binary_search. remember (S (Z.to_nat (zlen a))) as fuel eqn:Ef. assert (Z.to_nat (zlen a) < fuel)%nat as Hf by lia. clear Ef.
  assert (forall fuel l, 0 <= l < zlen a -> l <= zlen a - 1 -> search_loop fuel a v l (zlen a - 1) = UB) as K; [|apply K; lia].
  clear Hf fuel. induction fuel as [|fuel IH]; intros l Hl Hle; [reflexivity|]. cbn [search_loop]. destruct (Z.ltb_spec (zlen a - 1) l); [lia|].
  destruct (Z.ltb_spec lo_max (l + (zlen a - 1))) as [|H2]; [reflexivity|]. set (m := Z.quot (l + (zlen a - 1)) 2).
  assert (m = (l + (zlen a - 1)) / 2) as Em by (unfold m; apply Z.quot_div_nonneg; lia). unfold lo_max in *.
  destruct (zget_in_range a m ltac:(lia)) as (x & Ex). rewrite Ex. cbn [bind]. pose proof (Hx m x ltac:(lia) Ex). destruct (Z.ltb_spec x v); [|lia]. apply IH; lia.
Qed.

(** ** the classification marks *)
Lemma insert_value x l : Sorted Z.le l -> exists r, insert (fun x y => Ok (x <? y)) x l = Ok r /\ Sorted Z.le r /\ Permutation r (x :: l) /\ (forall y, HdRel Z.le y l -> y <= x -> HdRel Z.le y r).
Proof.
  induction l as [|a l IH]; intros Hs; cbn [insert]; [exists [x]; split; [reflexivity|]; split; [repeat constructor|]; split; [reflexivity|intros; constructor; assumption]|].
  cbn [bind]. apply Sorted_inv in Hs as Hs'. destruct Hs' as [Hs1 Hs2]. destruct (Z.ltb_spec x a).
  - exists (x :: a :: l). split; [reflexivity|]. split; [constructor; [exact Hs|constructor; lia]|]. split; [reflexivity|]. intros; constructor; assumption.
  - destruct (IH Hs1) as (r & -> & Sr & Pr & Hr). cbn [bind]. exists (a :: r). split; [reflexivity|]. split; [constructor; [exact Sr|apply Hr; [exact Hs2|lia]]|].
    split; [rewrite Pr; apply perm_swap|]. intros y Hy _. inversion Hy; subst. constructor. assumption.
Qed.
Lemma sort_values l : exists r, parallel_sort (fun x y => Ok (x <? y)) l = Ok r /\ Sorted Z.le r /\ Permutation r l.
Proof.
  unfold parallel_sort. assert (forall l s, Sorted Z.le s -> exists r, foldM (fun s x => insert (fun x y => Ok (x <? y)) x s) l s = Ok r /\ Sorted Z.le r /\ Permutation r (l ++ s)) as K.
  { clear l. induction l as [|x l IH]; intros s Hs; [exists s; split; [reflexivity|]; split; [exact Hs|reflexivity]|]. cbn [foldM]. destruct (insert_value x s Hs) as (s' & -> & Ss & Ps & _). cbn [bind].
    destruct (IH s' Ss) as (r & E & Sr & Pr). exists r. split; [exact E|]. split; [exact Sr|]. rewrite Pr, Ps. cbn [app]. symmetry. apply Permutation_middle. }
  destruct (K l [] ltac:(constructor)) as (r & E & H1 & H2). rewrite app_nil_r in H2. eauto.
Qed.
Lemma sorted_increasing a : Sorted Z.le a -> increasing a.
Proof.
  intros H. apply Sorted_StronglySorted in H; [|intros x y z; lia]. induction H as [|z l Hs IH Hf]; intros i j x y Hi Hj Hle; [apply zget_bounds in Hi; cbn in Hi; lia|].
  rewrite Forall_forall in Hf. pose proof (zget_bounds _ _ _ Hi) as Bi. pose proof (zget_bounds _ _ _ Hj) as Bj.
  assert (forall k w, 0 < k -> zget (z :: l) k = Ok w -> zget l (k - 1) = Ok w) as Sh.
  { intros k w Hk E. change (z :: l) with ([z] ++ l) in E. rewrite zget_app_r in E by (change (zlen [z]) with 1; lia). exact E. }
  destruct (Z.eq_dec i 0) as [->|Hi0].
  - assert (x = z) as -> by (vm_compute in Hi; congruence). destruct (Z.eq_dec j 0) as [->|]; [vm_compute in Hj; injection Hj as ->; lia|]. apply Hf. eapply zget_In, (Sh j); [lia|exact Hj].
  - apply (IH (i - 1) (j - 1)); [apply Sh; [lia|exact Hi]|apply Sh; [lia|exact Hj]|lia].
Qed.

Lemma eq_marks_spec ds cs d ids : zlen cs = zlen ds -> zlen ids <= 1073741824 ->
  exists r, get_eq_marks ds cs (zlen ds) d ids = Ok r /\ zlen r = zlen ds /\ forall e, 0 <= e < zlen ds -> says r e (zget ds e = Ok d /\ exists c, zget cs e = Ok c /\ In c ids).
Proof.
  intros Hl Hb. unfold get_eq_marks. destruct (sort_values ids) as (sorted & -> & Ss & Ps). cbn [bind]. pose proof (sorted_increasing _ Ss) as Hi.
  assert (zlen sorted <= 1073741824) as Hb' by (unfold zlen in *; rewrite (Permutation_length Ps); exact Hb).
  destruct (tabulate_says (zlen ds) (fun eq => d0 <- zget ds eq ;; if negb (d0 =? d) then Ok 0 else c <- zget cs eq ;; i <- binary_search sorted c (zlen sorted) ;; Ok (mark (negb (-1 =? i))))
    (fun e => tells (zget ds e = Ok d /\ exists c, zget cs e = Ok c /\ In c ids)) (zlen_nonneg ds)) as (r & E & L & G).
  - intros e He. destruct (zget_in_range ds e He) as (x & Ex). rewrite Ex. cbn [bind]. destruct (Z.eqb_spec x d) as [->|Hne]; cbn [negb].
    + destruct (zget_in_range cs e ltac:(lia)) as (c & Ec). rewrite Ec. cbn [bind]. destruct (binary_search_spec sorted c Hi Hb') as (i & -> & Hs). cbn [bind]. eexists. split; [reflexivity|].
      destruct Hs as [[-> Hn]|Hs].
      * right. split; [reflexivity|]. intros (_ & c' & Ec' & Hin). apply Hn. eapply Permutation_in; [symmetry; exact Ps|]. congruence.
      * left. assert (0 <= i) by (apply zget_bounds in Hs; lia). destruct (Z.eqb_spec (-1) i); [lia|]. split; [reflexivity|]. split; [reflexivity|]. exists c. split; [reflexivity|].
        eapply Permutation_in; [exact Ps|]. eapply zget_In, Hs.
    + eexists. split; [reflexivity|]. right. split; [reflexivity|]. intros (H & _). congruence.
  - exists r. split; [exact E|]. split; [exact L|]. intros e He. destruct (G e He) as (x & X1 & X2). exact (says_of _ _ _ _ X1 X2).
Qed.
Lemma lor_spec a b : zlen a = zlen b -> exists r, lor_each a b = Ok r /\ zlen r = zlen a /\ forall i, 0 <= i < zlen a -> says r i (marked a i \/ marked b i).
Proof.
  intros Hl. unfold lor_each, check. rewrite Hl, Z.eqb_refl. cbn [bind].
  destruct (tabulate_says (zlen b) (fun i => x <- zget a i ;; y <- zget b i ;; Ok (mark (truth x || truth y))) (fun i => tells (marked a i \/ marked b i)) (zlen_nonneg b)) as (r & E & L & G).
  - intros i Hi. destruct (zget_in_range a i ltac:(lia)) as (x & Ex). destruct (zget_in_range b i ltac:(lia)) as (y & Ey). rewrite Ex, Ey. cbn [bind]. eexists. split; [reflexivity|].
    unfold marked. rewrite Ex, Ey. destruct (truth x) eqn:Tx; [|destruct (truth y) eqn:Ty]; cbn [orb mark].
    + left. split; [reflexivity|]. left. exists x. split; [reflexivity|]. apply truth_spec, Tx.
    + left. split; [reflexivity|]. right. exists y. split; [reflexivity|]. apply truth_spec, Ty.
    + right. split; [reflexivity|]. unfold truth in *. intros [(m & Em & Hm)|(m & Em & Hm)]; injection Em as <-; destruct (Z.eqb_spec x 0), (Z.eqb_spec y 0); try discriminate; congruence.
  - exists r. split; [exact E|]. split; [exact L|]. intros e He. destruct (G e He) as (x & X1 & X2). exact (says_of _ _ _ _ X1 X2).
Qed.
Lemma dim_ids d pairs c : In c (get_dim_class_ids d pairs) <-> In (d, c) pairs.
Proof.
  unfold get_dim_class_ids. rewrite in_map_iff. split.
  - intros ([d' c'] & <- & H). apply filter_In in H as [H1 H2]. cbn in *. apply Z.eqb_eq in H2. congruence.
  - intros H. exists (d, c). split; [reflexivity|]. apply filter_In. split; [exact H|]. cbn. apply Z.eqb_refl.
Qed.
Lemma dim_ids_len d pairs : zlen (get_dim_class_ids d pairs) <= zlen pairs.
Proof. unfold get_dim_class_ids. rewrite zlen_map. induction pairs as [|p l IH]; [reflexivity|]. cbn [filter]. destruct (fst p =? d); rewrite ?zlen_cons in *; lia. Qed.

Lemma closures_spec dim ents pairs g nn : 0 <= dim -> zlen pairs <= 1073741824 ->
  (forall d, 0 <= d <= dim -> wf_graph (g d) /\ nnodes (g d) = nn /\ zlen (snd (ents d)) = zlen (fst (ents d)) /\ forall e, In e (ab2b (g d)) -> 0 <= e < zlen (fst (ents d))) ->
  exists r, mark_class_closures dim ents pairs g = Ok r /\ zlen r = nn /\
  forall n, 0 <= n < nn -> says r n (exists d c e, 0 <= d <= dim /\ In (d, c) pairs /\ edge (g d) n e /\ zget (fst (ents d)) e = Ok d /\ zget (snd (ents d)) e = Ok c).
Proof.
  intros Hd Hp H. unfold mark_class_closures. fold (nnodes (g dim)). destruct (H dim ltac:(lia)) as (Hw & Hnn & _). rewrite Hnn.
  assert (0 <= nn) as Hn0 by (pose proof (zget_bounds _ _ _ (proj1 (proj1 Hw))); unfold nnodes in Hnn; lia).
  rewrite filled_ok by lia. cbn [bind].
  set (body := fun marks class_dim => match get_dim_class_ids class_dim pairs with [] => Ok marks | _ => _ end).
  destruct (forM_invariant (fun k r => zlen r = nn /\ forall n, 0 <= n < nn -> says r n (exists d c e, 0 <= d < k /\ In (d, c) pairs /\ edge (g d) n e /\ zget (fst (ents d)) e = Ok d /\ zget (snd (ents d)) e = Ok c))
    (dim + 1) (repeat 0 (Z.to_nat nn)) body ltac:(lia)) as (r & E & L & G).
  - split; [rewrite zlen_repeat; lia|]. intros n Hn. right. split; [apply zget_repeat; lia|]. intros (d & c & e & H1 & _). lia.
  - intros d m Hdd (L & G). unfold body. destruct (get_dim_class_ids d pairs) as [|c0 ids] eqn:Ei.
    + exists m. split; [reflexivity|]. split; [exact L|]. intros n Hn. eapply says_iff; [|exact (G n Hn)]. split; intros (d' & c & e & H1 & H2 & H3); exists d', c, e; (split; [|auto]); [lia|].
      destruct (Z.eq_dec d' d) as [->|]; [|lia]. apply dim_ids in H2. rewrite Ei in H2. destruct H2.
    + rewrite <- Ei. destruct (H d ltac:(lia)) as (Hwd & Hnd & Hld & Hed).
      destruct (eq_marks_spec (fst (ents d)) (snd (ents d)) d (get_dim_class_ids d pairs) Hld ltac:(pose proof (dim_ids_len d pairs); lia)) as (eq & -> & Le & Ge). cbn [bind].
      destruct (mark_down_spec (g d) eq Hwd ltac:(intros h Hh; rewrite Le; apply Hed, Hh)) as (dm & -> & Ld & Gd). cbn [bind]. rewrite Hnd in *.
      destruct (lor_spec m dm ltac:(lia)) as (r & Er & Lr & Gr). exists r. split; [exact Er|]. split; [lia|]. intros n Hn. eapply says_iff; [|exact (Gr n ltac:(lia))].
      rewrite (says_marked _ _ _ (G n Hn)), (says_marked _ _ _ (Gd n Hn)). split.
      * intros [(d' & c & e & H1 & H2)|(e & He & Hm)]; [exists d', c, e; split; [lia|exact H2]|]. 
        assert (0 <= e < zlen (fst (ents d))) as Be. { destruct He as (ts & Ht & Hin). destruct (targets_split _ _ _ Ht) as (lo & hi & _ & _ & E3). destruct (mapM_in_inv _ _ _ _ E3 Hin) as (i & Ei' & _). apply Hed. eapply zget_In, Ei'. }
        apply (says_marked _ _ _ (Ge e Be)) in Hm as (M1 & c & M2 & M3). exists d, c, e. split; [lia|]. split; [apply dim_ids, M3|]. auto.
      * intros (d' & c & e & H1 & H2 & H3 & H4 & H5). destruct (Z.eq_dec d' d) as [->|]; [right|left; exists d', c, e; split; [lia|auto]].
        exists e. split; [exact H3|]. apply (says_marked _ _ _ (Ge e ltac:(apply zget_bounds in H4; exact H4))). split; [exact H4|]. exists c. split; [exact H5|]. apply dim_ids, H2.
  - exists r. split; [exact E|]. split; [exact L|]. intros n Hn. eapply says_iff; [|exact (G n Hn)]. split; intros (d & c & e & H1 & H2); exists d, c, e; (split; [lia|exact H2]).
Qed.

(** ** layers *)
Lemma reduce_step g marks : wf_graph g -> (forall w, In w (ab2b g) -> 0 <= w < zlen marks) -> (forall x, In x marks -> 0 <= x <= 127) ->
  (forall v, 0 <= v < nnodes g -> exists w, edge g v w) ->
  exists r, graph_reduce (-128) 127 g marks 1 OMEGA_H_MAX = Ok r /\ zlen r = nnodes g /\ (forall x, In x r -> 0 <= x <= 127) /\
  forall v, 0 <= v < nnodes g -> (marked r v <-> exists w, edge g v w /\ marked marks w).
Proof.
  intros Hg Hr Hx He. unfold graph_reduce. destruct (unmap_spec (ab2b g) marks 1 ltac:(lia)) as (abd & -> & La & Ga).
  { intros b Hb. specialize (Hr b Hb). lia. }
  cbn [bind]. destruct (fan_reduce_spec (-128) 127 OMEGA_H_MAX (a2ab g) abd 1 (zlen (ab2b g)) (proj1 Hg) ltac:(lia) (proj2 Hg) La) as (r & E & L & G).
  { intros x Hin. apply In_zget in Hin as (i & Ei). pose proof (zget_bounds _ _ _ Ei) as Bi. destruct (zget_in_range (ab2b g) i ltac:(lia)) as (b & Eb). specialize (Ga i b 0 Eb ltac:(lia)).
    rewrite !Z.mul_1_r, !Z.add_0_r in Ga. assert (In x marks); [eapply zget_In; rewrite <- Ga; exact Ei|]. specialize (Hx x H). lia. }
  assert (forall v, 0 <= v < nnodes g -> exists ts vs x, targets g v = Ok ts /\ mapM (zget marks) ts = Ok vs /\ vs <> [] /\ zget r v = Ok x /\ In x vs /\ forall y, In y vs -> y <= x) as K.
  { intros v Hv. destruct (He v Hv) as (w & ts & Ht & Hw). destruct (targets_split _ _ _ Ht) as (lo & hi & E1 & E2 & E3).
    destruct (G v lo hi 0 E1 E2 ltac:(lia)) as (vs & x & V1 & V2 & V3). rewrite Z.mul_1_r, Z.add_0_r in V2. exists ts, vs, x.
    assert (mapM (zget marks) ts = Ok vs) as V4.
    { rewrite <- V1. clear - E3 Ga. revert ts E3. induction (zfromto lo hi) as [|i l IH]; intros ts E; cbn [mapM] in *; [injection E as <-; reflexivity|].
      apply bind_ok in E as (b & Eb & E). apply bind_ok in E as (ts' & Et & E). injection E as <-. cbn [mapM]. rewrite (Ga i b 0 Eb ltac:(lia)). rewrite Z.mul_1_r, Z.add_0_r, (IH ts' Et). reflexivity. }
    assert (vs <> []) as Hne. { intros ->. destruct ts; [destruct Hw|]. cbn [mapM] in V4. apply bind_ok in V4 as (? & _ & V4). apply bind_ok in V4 as (? & _ & V4). discriminate. }
    split; [exact Ht|]. split; [exact V4|]. split; [exact Hne|]. split; [exact V2|]. cbn [reduced] in V3. destruct vs as [|v0 vs]; [congruence|]. cbn in V3. exact V3. }
  rewrite Z.mul_1_r in L. fold (nnodes g) in L. exists r. split; [exact E|]. split; [exact L|]. split.
  - intros x Hin. apply In_zget in Hin as (v & Ev). pose proof (zget_bounds _ _ _ Ev) as Bv. destruct (K v ltac:(lia)) as (ts & vs & y & K1 & K2 & K3 & K4 & K5 & K6). assert (y = x) as -> by congruence.
    destruct (mapM_in_inv _ _ _ _ K2 K5) as (w & Ew & _). apply Hx. eapply zget_In, Ew.
  - intros v Hv. destruct (K v Hv) as (ts & vs & y & K1 & K2 & K3 & K4 & K5 & K6). split.
    + intros (m & Em & Hm). assert (y = m) as -> by congruence. destruct (mapM_in_inv _ _ _ _ K2 K5) as (w & Ew & Hw). exists w. split; [exists ts; auto|exists m; auto].
    + intros (w & (ts' & Ht' & Hin) & m & Em & Hm). assert (ts' = ts) as -> by congruence. destruct (mapM_in _ _ _ _ K2 Hin) as (m' & Em' & Hm'). assert (m' = m) as -> by congruence.
      exists y. split; [exact K4|]. pose proof (K6 m Hm'). pose proof (Hx m ltac:(eapply zget_In, Em)). lia.
Qed.
Lemma walk_snoc g n : forall v w, walk g (S n) v w <-> exists u, walk g n v u /\ edge g u w.
Proof.
  induction n as [|n IH]; intros v w.
  - cbn. split; [intros (u & He & ->); exists v; auto|intros (u & -> & He); exists w; auto].
  - change (walk g (S (S n)) v w) with (exists u, edge g v u /\ walk g (S n) u w). split.
    + intros (u & He & Hw). apply IH in Hw as (u' & Hw & He'). exists u'. split; [exists u; auto|exact He'].
    + intros (u & (u' & He & Hw) & He'). exists u'. split; [exact He|]. apply IH. exists u; auto.
Qed.
Lemma edge_range g v w : edge g v w -> In w (ab2b g).
Proof. intros (ts & Ht & Hin). destruct (targets_split _ _ _ Ht) as (lo & hi & _ & _ & E3). destruct (mapM_in_inv _ _ _ _ E3 Hin) as (i & Ei & _). eapply zget_In, Ei. Qed.
Lemma layers_spec g marks nlayers : wf_graph g -> nnodes g = zlen marks -> (forall w, In w (ab2b g) -> 0 <= w < zlen marks) -> (forall x, In x marks -> 0 <= x <= 127) ->
  (forall v, 0 <= v < nnodes g -> exists w, edge g v w) -> 0 <= nlayers ->
  exists r, mark_dual_layers g marks nlayers = Ok r /\ zlen r = zlen marks /\ forall v, 0 <= v < zlen marks -> (marked r v <-> exists w, walk g (Z.to_nat nlayers) v w /\ marked marks w).
Proof.
  intros Hg Hn Hr Hx He Hl. unfold mark_dual_layers.
  destruct (forM_invariant (fun k r => zlen r = zlen marks /\ (forall x, In x r -> 0 <= x <= 127) /\ forall v, 0 <= v < zlen marks -> (marked r v <-> exists w, walk g (Z.to_nat k) v w /\ marked marks w))
    nlayers marks (fun marks _ => graph_reduce (-128) 127 g marks 1 OMEGA_H_MAX) Hl) as (r & E & L & _ & G).
  - split; [reflexivity|]. split; [exact Hx|]. intros v Hv. cbn. split; [intros H; exists v; auto|intros (w & -> & H); exact H].
  - intros k m Hk (L & X & G). destruct (reduce_step g m Hg ltac:(intros w Hw; rewrite L; apply Hr, Hw) X He) as (r & E & Lr & Xr & Gr). exists r. split; [exact E|]. split; [lia|]. split; [exact Xr|].
    intros v Hv. rewrite (Gr v ltac:(lia)). replace (Z.to_nat (k + 1)) with (S (Z.to_nat k)) by lia. cbn [walk]. split.
    + intros (u & He' & Hm). apply G in Hm as (w & Hw & Hm); [|apply Hr; eapply edge_range, He']. exists w. split; [exists u; auto|exact Hm].
    + intros (w & (u & He' & Hw) & Hm). exists u. split; [exact He'|]. apply G; [apply Hr; eapply edge_range, He'|]. exists w; auto.
  - exists r. auto.
Qed.
Lemma layers_drop_seed : mark_dual_layers (mk_graph [0; 1; 2] [1; 0]) [1; 0] 1 = Ok [0; 1] /\ mark_dual_layers (mk_graph [0; 0] []) [0] 1 = Ok [-128].
Proof. split; vm_compute; reflexivity. Qed.

Lemma search_overflow_exists : exists a v, increasing a /\ zlen a = 1073741825 /\ binary_search a v (zlen a) = UB.
Proof.
  set (n := 1073741825). exists (repeat 0 (Z.to_nat n)), 1. assert (zlen (repeat 0 (Z.to_nat n)) = n) as L by (rewrite zlen_repeat; unfold n; lia).
  assert (forall i x, zget (repeat 0 (Z.to_nat n)) i = Ok x -> x = 0) as Z0 by (intros i x Ei; apply zget_In in Ei; apply repeat_spec in Ei; exact Ei).
  split; [intros i j x y Ei Ej _; rewrite (Z0 _ _ Ei), (Z0 _ _ Ej); lia|]. split; [exact L|]. apply binary_search_overflow; [rewrite L; unfold n; lia| |rewrite L; unfold n, lo_max; lia].
  intros i x _ Ex. rewrite (Z0 _ _ Ex). lia.
Qed.
Lemma layers_within_refuted : ~ (forall g marks r v, wf_graph g -> nnodes g = zlen marks -> (forall w, In w (ab2b g) -> 0 <= w < zlen marks) -> mark_dual_layers g marks 1 = Ok r -> marked marks v -> marked r v).
Proof.
  intros H. destruct (H (mk_graph [0; 1; 2] [1; 0]) [1; 0] [0; 1] 0) as (m & Em & Hm).
  - split; [|reflexivity]. split; [reflexivity|]. intros i lo hi Hlo Hhi. pose proof (zget_bounds _ _ _ Hlo). pose proof (zget_bounds _ _ _ Hhi). change (zlen (a2ab (mk_graph [0; 1; 2] [1; 0]))) with 3 in *.
    assert (i = 0 \/ i = 1) as [-> | ->] by lia; vm_compute in Hlo, Hhi; injection Hlo as <-; injection Hhi as <-; lia.
  - reflexivity.
  - cbn. intros w [<-|[<-|[]]]; change (zlen [1; 0]) with 2; lia.
  - vm_compute. reflexivity.
  - exists 1. split; [reflexivity|lia].
  - vm_compute in Em. congruence.
Qed.
