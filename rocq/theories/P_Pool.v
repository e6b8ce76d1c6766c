From Verif Require Import Prelude M_Pool S_Pool.
Local Open Scope Z_scope.

(** * size classes *)
Lemma find_shift_spec fuel : forall shift size, 0 <= shift -> (shift = 0 \/ 2 ^ (shift - 1) < size) ->
  size <= 2 ^ (shift + Z.of_nat fuel) ->
  exists k, find_shift fuel shift size = Ok k /\ shift <= k <= shift + Z.of_nat fuel /\ size <= 2 ^ k /\ (k = 0 \/ 2 ^ (k - 1) < size).
Proof.
  induction fuel as [|f IH]; intros shift size H0 H1 H2; cbn [find_shift].
  - destruct (Z.ltb_spec (2 ^ shift) size) as [H|H]; [rewrite Z.add_0_r in H2; lia|]. exists shift. split; [reflexivity|]. split; [lia|auto].
  - destruct (Z.ltb_spec (2 ^ shift) size) as [H|H].
    + destruct (IH (shift + 1) size) as (k & E & B & R); [lia|right; replace (shift + 1 - 1) with shift by lia; exact H| |].
      * replace (shift + 1 + Z.of_nat f) with (shift + Z.of_nat (S f)) by lia. exact H2.
      * exists k. split; [exact E|]. split; [lia|exact R].
    + exists shift. split; [reflexivity|]. split; [lia|auto].
Qed.
Lemma shift_for_spec size : size <= 2 ^ 63 -> exists k, shift_for size = Ok k /\ 0 <= k < 64 /\ 2 ^ k = size_class size /\ size <= 2 ^ k.
Proof.
  intros H. destruct (find_shift_spec 63 0 size) as (k & E & B & L & R); [lia|left; reflexivity|exact H|].
  exists k. split; [exact E|]. split; [lia|]. split; [|exact L]. unfold size_class.
  destruct R as [->|R]; [change (2 ^ 0) with 1 in *; destruct (Z.leb_spec size 1); [reflexivity|lia]|].
  destruct (Z.eq_dec k 0) as [->|Hk]; [change (2 ^ 0) with 1 in L; destruct (Z.leb_spec size 1); [reflexivity|lia]|].
  assert (0 < 2 ^ (k - 1)) by (apply Z.pow_pos_nonneg; lia).
  destruct (Z.leb_spec size 1); [lia|]. f_equal. symmetry. apply Z.log2_up_unique; [lia|]. unfold Z.pred. split; [exact R|exact L].
Qed.
Lemma find_shift_ub fuel : forall shift size, 0 <= shift -> 2 ^ (shift + Z.of_nat fuel) < size -> find_shift fuel shift size = UB.
Proof.
  induction fuel as [|f IH]; intros shift size H0 H; cbn [find_shift].
  - rewrite Z.add_0_r in H. destruct (Z.ltb_spec (2 ^ shift) size); [reflexivity|lia].
  - assert (2 ^ shift < size). { eapply Z.le_lt_trans; [|exact H]. apply Z.pow_le_mono_r; lia. }
    destruct (Z.ltb_spec (2 ^ shift) size); [|lia]. apply IH; [lia|]. replace (shift + 1 + Z.of_nat f) with (shift + Z.of_nat (S f)) by lia. exact H.
Qed.
Lemma shift_for_ub size : 2 ^ 63 < size -> shift_for size = UB.
Proof. intros H. apply find_shift_ub; [lia|exact H]. Qed.

(** * the blocks of the 64 lists *)
Fixpoint blocks (i : Z) (l : list (list Z)) : list (Z * Z) :=
  match l with
  | [] => []
  | bs :: r => map (fun b => (b, 2 ^ i)) bs ++ blocks (i + 1) r
  end.

Lemma blocks_set l : forall i k bs bs', nth_error l k = Some bs ->
  Permutation (map (fun b => (b, 2 ^ (i + Z.of_nat k))) bs ++ blocks i (list_set l k bs'))
              (map (fun b => (b, 2 ^ (i + Z.of_nat k))) bs' ++ blocks i l).
Proof.
  induction l as [|x l IH]; intros i [|k] bs bs' H; cbn in H; try discriminate; cbn [list_set blocks].
  - injection H as ->. change (Z.of_nat 0) with 0. rewrite !Z.add_0_r. rewrite !app_assoc. apply Permutation_app_tail, Permutation_app_comm.
  - specialize (IH (i + 1) k bs bs' H). replace (i + 1 + Z.of_nat k) with (i + Z.of_nat (S k)) in IH by lia.
    rewrite (Permutation_app_comm (map _ x) (blocks (i + 1) (list_set l k bs'))), app_assoc.
    rewrite IH. rewrite <- app_assoc. apply Permutation_app_head, Permutation_app_comm.
Qed.

Lemma blocks_push l i bs p k : 0 <= k -> zget l k = Ok bs ->
  Permutation (blocks i (list_set l (Z.to_nat k) (bs ++ [p]))) ((p, 2 ^ (i + k)) :: blocks i l).
Proof.
  intros Hk H. apply zget_ok in H as [_ H]. pose proof (blocks_set l i _ bs (bs ++ [p]) H) as P. rewrite Z2Nat.id in P by lia.
  rewrite map_app, <- app_assoc in P. apply Permutation_app_inv_l in P. exact P.
Qed.
Lemma blocks_pull l i bs bs' p k : 0 <= k -> zget l k = Ok bs -> Permutation bs (p :: bs') ->
  Permutation ((p, 2 ^ (i + k)) :: blocks i (list_set l (Z.to_nat k) bs')) (blocks i l).
Proof.
  intros Hk H HP. apply zget_ok in H as [_ H]. pose proof (blocks_set l i _ bs bs' H) as P. rewrite Z2Nat.id in P by lia.
  pose proof (Permutation_map (fun b => (b, 2 ^ (i + k))) HP) as Q. cbn [map] in Q.
  assert (Permutation (map (fun b => (b, 2 ^ (i + k))) bs' ++ (p, 2 ^ (i + k)) :: blocks i (list_set l (Z.to_nat k) bs')) (map (fun b => (b, 2 ^ (i + k))) bs' ++ blocks i l)) as P'.
  { rewrite <- P. etransitivity; [symmetry; apply Permutation_middle|]. rewrite app_comm_cons. apply Permutation_app_tail. symmetry. exact Q. }
  apply Permutation_app_inv_l in P'. exact P'.
Qed.
Lemma blocks_cleared l : forall i, blocks i (cleared l) = [].
Proof. induction l; intros i; cbn; auto. Qed.
Lemma blocks_repeat n : forall i, blocks i (repeat [] n) = [].
Proof. induction n; intros i; cbn; auto. Qed.
Lemma blocks_in l : forall i p s, In (p, s) (blocks i l) -> exists k bs, zget l k = Ok bs /\ In p bs /\ s = 2 ^ (i + k).
Proof.
  induction l as [|x l IH]; intros i p s H; cbn in H; [destruct H|]. apply in_app_or in H as [H|H].
  - apply in_map_iff in H as (b & E & H). injection E as -> <-. exists 0, x. rewrite Z.add_0_r. auto.
  - destruct (IH _ _ _ H) as (k & bs & E & Hp & ->). exists (k + 1), bs. pose proof (zget_bounds _ _ _ E). split; [|split; [exact Hp|f_equal; lia]].
    apply zget_ok in E as [_ E]. apply zget_ok. split; [lia|]. replace (Z.to_nat (k + 1)) with (S (Z.to_nat k)) by lia. exact E.
Qed.
Lemma blocks_in_inv l k bs p : zget l k = Ok bs -> In p bs -> forall i, In (p, 2 ^ (i + k)) (blocks i l).
Proof.
  intros E Hp i. pose proof (zget_bounds _ _ _ E). apply zget_ok in E as [_ E]. revert k i E H. induction l as [|x l IH]; intros k i E H.
  - destruct (Z.to_nat k); discriminate.
  - cbn. apply in_or_app. destruct (Z.eq_dec k 0) as [->|Hk].
    + left. cbn in E. injection E as ->. rewrite Z.add_0_r. apply in_map_iff. eauto.
    + right. rewrite zlen_cons in H. replace (Z.to_nat k) with (S (Z.to_nat (k - 1))) in E by lia. cbn in E.
      specialize (IH (k - 1) (i + 1) E ltac:(lia)). replace (i + 1 + (k - 1)) with (i + k) in IH by lia. exact IH.
Qed.

(** * underlying history *)
Lemma drop_block_perm p l : NoDup (map fst l) -> forall s, In (p, s) l -> Permutation l ((p, s) :: drop_block p l).
Proof.
  induction l as [|[q t] l IH]; intros Hn s Hi; [destruct Hi|]. cbn in Hn. apply NoDup_cons_iff in Hn as [Hq Hn]. cbn.
  destruct Hi as [E|Hi].
  - injection E as -> ->. rewrite Z.eqb_refl. reflexivity.
  - destruct (Z.eqb_spec q p) as [->|Hne].
    + exfalso. apply Hq. apply in_map_iff. exists (p, s). auto.
    + etransitivity; [apply perm_skip, (IH Hn s Hi)|apply perm_swap].
Qed.

Lemma nodup_perm {A} (l m : list (Z * A)) : Permutation l m -> NoDup (map fst l) -> NoDup (map fst m).
Proof. intros P H. eapply Permutation_NoDup; [apply Permutation_map, P|exact H]. Qed.

Lemma free_all bs h rest : frees_valid h -> NoDup (map fst (underlying_live h)) ->
  forall i, Permutation (underlying_live h) (map (fun b => (b, 2 ^ i)) bs ++ rest) ->
  let h' := fold_left (fun h b => UFree b (2 ^ i) :: h) bs h in
  frees_valid h' /\ Permutation (underlying_live h') rest /\ NoDup (map fst (underlying_live h')).
Proof.
  intros Hv Hn i. revert h Hv Hn. induction bs as [|b bs IH]; intros h Hv Hn P; cbn in *; [auto|].
  assert (In (b, 2 ^ i) (underlying_live h)) as Hin by (eapply Permutation_in; [apply Permutation_sym, P|left; reflexivity]).
  assert (Permutation (drop_block b (underlying_live h)) (map (fun b => (b, 2 ^ i)) bs ++ rest)) as P'.
  { eapply Permutation_cons_inv. etransitivity; [symmetry; apply drop_block_perm; [exact Hn|exact Hin]|exact P]. }
  apply IH; cbn; [auto| |exact P'].
  eapply nodup_perm in Hn; [|exact P]. eapply nodup_perm; [apply Permutation_sym, P'|]. cbn in Hn. apply NoDup_cons_iff in Hn. apply Hn.
Qed.
Lemma free_lists l : forall i h rest, frees_valid h -> NoDup (map fst (underlying_live h)) ->
  Permutation (underlying_live h) (blocks i l ++ rest) ->
  let h' := call_underlying_frees i l h in
  frees_valid h' /\ Permutation (underlying_live h') rest /\ NoDup (map fst (underlying_live h')).
Proof.
  induction l as [|bs l IH]; intros i h rest Hv Hn P; cbn [call_underlying_frees blocks] in *; [auto|].
  rewrite <- app_assoc in P. destruct (free_all bs h _ Hv Hn i P) as (Hv' & P' & Hn'). apply IH; auto.
Qed.

(** * the invariant *)
Definition rounded (l : list (Z * Z)) : list (Z * Z) := map (fun x => (fst x, size_class (snd x))) l.
Definition PI (s : pool * list cevent) : Prop :=
  zlen (used_blocks (fst s)) = 64 /\ zlen (free_blocks (fst s)) = 64 /\
  frees_valid (hist (fst s)) /\ NoDup (map fst (underlying_live (hist (fst s)))) /\
  Permutation (underlying_live (hist (fst s))) (blocks 0 (used_blocks (fst s)) ++ blocks 0 (free_blocks (fst s))) /\
  Permutation (rounded (held (snd s))) (blocks 0 (used_blocks (fst s))) /\
  (forall x, In x (held (snd s)) -> snd x <= 2 ^ 63).

Lemma PI_new : PI (new_pool, []).
Proof. unfold PI, new_pool. cbn [fst snd used_blocks free_blocks hist]. rewrite blocks_repeat. repeat split; try reflexivity; try constructor. intros x []. Qed.

Lemma back_pop_spec l : match back_pop l with None => l = [] | Some (l', x) => l = l' ++ [x] end.
Proof.
  unfold back_pop. destruct (rev l) as [|x r] eqn:E.
  - rewrite <- (rev_involutive l), E. reflexivity.
  - rewrite <- (rev_involutive l), E. reflexivity.
Qed.

Lemma zset_list {A} (l : list A) k x y : zget l k = Ok x -> zset l k y = Ok (list_set l (Z.to_nat k) y).
Proof. intros H. apply zget_bounds in H. unfold zset. destruct (Z.leb_spec 0 k), (Z.ltb_spec k (zlen l)); try lia. reflexivity. Qed.
Lemma zlen_list_set {A} (l : list A) k y : zlen (list_set l k y) = zlen l.
Proof. unfold zlen. rewrite list_set_length. reflexivity. Qed.

Lemma allocate_spec malloc s size : sane_malloc malloc -> PI s -> size <= 2 ^ 63 ->
  (exists q, pool_step malloc s (Allocate size) = Ok q /\ PI q /\ exists p, snd q = Got p size :: snd s) \/
  (pool_step malloc s (Allocate size) = Abort).
Proof.
  intros HM (Lu & Lf & Hv & Hn & PU & PC & HS) Hsz. destruct s as [p t]. cbn [fst snd] in *. unfold pool_step, allocate. cbn [fst snd].
  destruct (shift_for_spec size Hsz) as (k & Ek & Bk & Hk & _). rewrite Ek. cbn [bind].
  destruct (zget_in_range (free_blocks p) k) as (fl & Ef); [lia|]. destruct (zget_in_range (used_blocks p) k) as (ul & Eu); [lia|]. rewrite Ef, Eu. cbn [bind].
  pose proof (blocks_push (used_blocks p) 0 ul) as Push.
  assert (forall d, Permutation (rounded (held (Got d size :: t))) (blocks 0 (list_set (used_blocks p) (Z.to_nat k) (ul ++ [d])))) as PC'.
  { intros d. rewrite Push by (lia || exact Eu). cbn. rewrite Hk. apply perm_skip, PC. }
  assert (forall d x, In x (held (Got d size :: t)) -> snd x <= 2 ^ 63) as HS'.
  { intros d x [<-|Hx]; [exact Hsz|apply HS, Hx]. }
  pose proof (back_pop_spec fl) as Hb. destruct (back_pop fl) as [[fl' d]|].
  - left. rewrite (zset_list _ _ _ _ Eu), (zset_list _ _ _ _ Ef). cbn [bind fst snd]. eexists. split; [reflexivity|]. split; [|exists d; reflexivity].
    unfold PI. cbn [fst snd used_blocks free_blocks hist]. rewrite !zlen_list_set. split; [exact Lu|]. split; [exact Lf|]. split; [exact Hv|]. split; [exact Hn|].
    split; [|split; [apply PC'|apply HS']].
    rewrite PU, Push by (lia || exact Eu). cbn [app]. rewrite <- (blocks_pull (free_blocks p) 0 fl fl' d k); [|lia|exact Ef|].
    + symmetry. apply Permutation_middle.
    + rewrite Hb. symmetry. apply Permutation_cons_append.
  - assert (forall h f d, zlen f = 64 -> frees_valid h -> NoDup (map fst (underlying_live h)) -> malloc h (2 ^ k) = Some d ->
      Permutation (underlying_live h) (blocks 0 (used_blocks p) ++ blocks 0 f) ->
      PI ({| used_blocks := list_set (used_blocks p) (Z.to_nat k) (ul ++ [d]); free_blocks := f; hist := UMalloc (2 ^ k) d :: h |}, Got d size :: t)) as K.
    { intros h f d Lf' Hv' Hn' Em Pl. unfold PI. cbn [fst snd used_blocks free_blocks hist underlying_live frees_valid map]. rewrite zlen_list_set.
      split; [exact Lu|]. split; [exact Lf'|]. split; [exact Hv'|]. split; [constructor; [apply (HM _ _ _ Em)|exact Hn']|].
      split; [|split; [apply PC'|apply HS']]. rewrite Pl, Push by (lia || exact Eu). reflexivity. }
    destruct (malloc (hist p) (2 ^ k)) as [d|] eqn:Em.
    + left. rewrite (zset_list _ _ _ _ Eu). cbn [bind fst snd]. eexists. split; [reflexivity|]. split; [|exists d; reflexivity]. apply K; auto.
    + destruct (malloc (call_underlying_frees 0 (free_blocks p) (hist p)) (2 ^ k)) as [d|] eqn:Em'; [|right; reflexivity].
      left. rewrite (zset_list _ _ _ _ Eu). cbn [bind fst snd]. eexists. split; [reflexivity|]. split; [|exists d; reflexivity].
      destruct (free_lists (free_blocks p) 0 (hist p) (blocks 0 (used_blocks p)) Hv Hn) as (Hv' & P' & Hn').
      { rewrite PU. apply Permutation_app_comm. }
      apply K; auto.
      * unfold cleared. rewrite zlen_map. exact Lf.
      * rewrite blocks_cleared, app_nil_r. exact P'.
Qed.

Lemma erase_first_spec x l : match erase_first x l with None => ~ In x l | Some l' => Permutation l (x :: l') end.
Proof.
  induction l as [|y l IH]; cbn; [intros []|]. destruct (Z.eqb_spec y x) as [->|Hne]; [reflexivity|].
  destruct (erase_first x l) as [l'|]; cbn.
  - rewrite IH. apply perm_swap.
  - intros [H|H]; [congruence|contradiction].
Qed.

Lemma rounded_drop p l : rounded (drop_block p l) = drop_block p (rounded l).
Proof. induction l as [|[q s] l IH]; [reflexivity|]. cbn. destruct (q =? p); [reflexivity|]. cbn. f_equal. exact IH. Qed.
Lemma rounded_fst l : map fst (rounded l) = map fst l.
Proof. unfold rounded. rewrite map_map. reflexivity. Qed.
Lemma held_nodup s : PI s -> NoDup (map fst (held (snd s))).
Proof.
  intros (_ & _ & _ & Hn & PU & PC & _). eapply nodup_perm in Hn; [|exact PU]. rewrite map_app in Hn.
  rewrite <- rounded_fst. eapply nodup_perm; [apply Permutation_sym, PC|].
  clear -Hn. revert Hn. generalize (map fst (blocks 0 (used_blocks (fst s)))). induction l as [|x l IH]; cbn; intros H; [constructor|].
  apply NoDup_cons_iff in H as [H1 H2]. constructor; [intros C; apply H1, in_or_app; left; exact C|apply IH, H2].
Qed.
Lemma drop_block_in p l x : In x (drop_block p l) -> In x l.
Proof.
  induction l as [|[q s] l IH]; cbn; [auto|]. destruct (q =? p); [auto|]. intros [H|H]; auto.
Qed.

Lemma deallocate_spec malloc s d size : PI s -> size <= 2 ^ 63 ->
  ((exists s', In (d, s') (held (snd s)) /\ size_class s' = size_class size) /\
     exists q, pool_step malloc s (Deallocate d size) = Ok q /\ PI q /\ snd q = Returned d size :: snd s) \/
  (~ (exists s', In (d, s') (held (snd s)) /\ size_class s' = size_class size) /\ pool_step malloc s (Deallocate d size) = Abort).
Proof.
  intros HP Hsz. pose proof (held_nodup s HP) as HN. destruct HP as (Lu & Lf & Hv & Hn & PU & PC & HS). destruct s as [p t]. cbn [fst snd] in *. unfold pool_step, deallocate. cbn [fst snd].
  destruct (shift_for_spec size Hsz) as (k & Ek & Bk & Hk & _). rewrite Ek. cbn [bind].
  destruct (zget_in_range (free_blocks p) k) as (fl & Ef); [lia|]. destruct (zget_in_range (used_blocks p) k) as (ul & Eu); [lia|]. rewrite Ef, Eu. cbn [bind].
  pose proof (erase_first_spec d ul) as He. destruct (erase_first d ul) as [ul'|].
  - left. assert (In (d, size_class size) (rounded (held t))) as Hin.
    { eapply Permutation_in; [apply Permutation_sym, PC|]. rewrite <- Hk. apply (fun H => blocks_in_inv _ k ul d Eu H 0).
      eapply Permutation_in; [apply Permutation_sym, He|left; reflexivity]. }
    split.
    { apply in_map_iff in Hin as ([q s'] & E & Hin). cbn in E. injection E as -> Es. exists s'. auto. }
    rewrite (zset_list _ _ _ _ Eu), (zset_list _ _ _ _ Ef). cbn [bind fst snd]. eexists. split; [reflexivity|]. split; [|reflexivity].
    unfold PI. cbn [fst snd used_blocks free_blocks hist held]. rewrite !zlen_list_set. split; [exact Lu|]. split; [exact Lf|]. split; [exact Hv|]. split; [exact Hn|].
    pose proof (blocks_pull (used_blocks p) 0 ul ul' d k ltac:(lia) Eu He) as Pull. rewrite Z.add_0_l in Pull.
    split; [|split].
    + rewrite PU. rewrite (blocks_push (free_blocks p) 0 fl d k) by (lia || exact Ef). rewrite Z.add_0_l. rewrite <- Pull. cbn [app]. apply Permutation_middle.
    + rewrite rounded_drop. apply (Permutation_cons_inv (a := (d, 2 ^ k))). rewrite Pull, <- PC. rewrite Hk. symmetry.
      apply drop_block_perm; [rewrite rounded_fst; exact HN|exact Hin].
    + intros x Hx. apply HS. eapply drop_block_in; eauto.
  - right. split; [|reflexivity]. intros (s' & Hin & Hc). apply He.
    assert (In (d, 2 ^ k) (blocks 0 (used_blocks p))) as Hb.
    { eapply Permutation_in; [exact PC|]. apply in_map_iff. exists (d, s'). cbn. rewrite Hc, Hk. auto. }
    apply blocks_in in Hb as (k' & bs & E & Hp & Ep). pose proof (zget_bounds _ _ _ E). cbn in Ep. apply Z.pow_inj_r in Ep; [|lia..]. subst k'. congruence.
Qed.

Definition small_call (c : call) : Prop := match c with Allocate s => s <= 2 ^ 63 | Deallocate _ s => s <= 2 ^ 63 end.

Lemma pool_step_inv malloc s c q : sane_malloc malloc -> PI s -> pool_step malloc s c = Ok q -> PI q.
Proof.
  intros HM HP E. destruct c as [size|d size].
  - destruct (Z_le_gt_dec size (2 ^ 63)) as [Hs|Hs].
    + destruct (allocate_spec malloc s size HM HP Hs) as [(q' & E' & HP' & _)|E']; rewrite E in E'; [injection E' as ->; exact HP'|discriminate].
    + exfalso. unfold pool_step, allocate in E. rewrite shift_for_ub in E by lia. discriminate.
  - destruct (Z_le_gt_dec size (2 ^ 63)) as [Hs|Hs].
    + destruct (deallocate_spec malloc s d size HP Hs) as [(_ & q' & E' & HP' & _)|[_ E']]; rewrite E in E'; [injection E' as ->; exact HP'|discriminate].
    + exfalso. unfold pool_step, deallocate in E. rewrite shift_for_ub in E by lia. discriminate.
Qed.

Lemma pool_run_snoc malloc cs c : pool_run malloc (cs ++ [c]) = (s <- pool_run malloc cs ;; pool_step malloc s c).
Proof. unfold pool_run. rewrite foldM_app. destruct (foldM _ cs _) as [s| |]; cbn; [|reflexivity..]. destruct (pool_step malloc s c); reflexivity. Qed.

Lemma pool_run_inv malloc cs : sane_malloc malloc -> forall s, pool_run malloc cs = Ok s -> PI s.
Proof.
  intros HM. induction cs as [|c cs IH] using rev_ind; intros s E.
  - unfold pool_run in E. cbn in E. injection E as <-. apply PI_new.
  - rewrite pool_run_snoc in E. apply bind_ok in E as (s0 & E0 & E). eapply pool_step_inv; eauto.
Qed.

Lemma pool_run_no_ub malloc cs : sane_malloc malloc -> Forall small_call cs -> pool_run malloc cs <> UB.
Proof.
  intros HM. induction cs as [|c cs IH] using rev_ind; intros F; [discriminate|]. rewrite pool_run_snoc.
  apply Forall_app in F as [F1 F2]. apply Forall_inv in F2. destruct (pool_run malloc cs) as [s| |] eqn:E; cbn; [|discriminate|apply IH, F1].
  pose proof (pool_run_inv malloc cs HM s E) as HP. destruct c as [size|d size]; cbn in F2.
  - destruct (allocate_spec malloc s size HM HP F2) as [(q' & -> & _)| ->]; discriminate.
  - destruct (deallocate_spec malloc s d size HP F2) as [(_ & q' & -> & _)|[_ ->]]; discriminate.
Qed.

(** * theorems *)
Lemma pool_live_ok malloc cs p t : sane_malloc malloc -> pool_run malloc cs = Ok (p, t) ->
  NoDup (map fst (held t)) /\
  (forall d s, In (d, s) (held t) -> exists s', In (d, s') (underlying_live (hist p)) /\ s <= s') /\
  frees_valid (hist p) /\ NoDup (map fst (underlying_live (hist p))).
Proof.
  intros HM E. pose proof (pool_run_inv malloc cs HM _ E) as HP. pose proof (held_nodup _ HP) as HN.
  destruct HP as (Lu & Lf & Hv & Hn & PU & PC & HS). cbn [fst snd] in *. split; [exact HN|]. split; [|auto].
  intros d s Hin. exists (size_class s). split.
  - eapply Permutation_in; [apply Permutation_sym, PU|]. apply in_or_app. left. eapply Permutation_in; [exact PC|].
    apply in_map_iff. exists (d, s). auto.
  - destruct (shift_for_spec s (HS _ Hin)) as (k & _ & _ & <- & H). exact H.
Qed.
Lemma pool_allocate_ok malloc cs p t size : sane_malloc malloc -> pool_run malloc cs = Ok (p, t) -> size <= 2 ^ 63 ->
  allocate malloc p size <> UB /\
  forall p' d, allocate malloc p size = Ok (p', d) -> ~ In d (map fst (held t)) /\
    exists s', In (d, s') (underlying_live (hist p')) /\ size <= s'.
Proof.
  intros HM E Hs. pose proof (pool_run_inv malloc cs HM _ E) as HP.
  pose proof (allocate_spec malloc (p, t) size HM HP Hs) as H. unfold pool_step in H. cbn [fst snd] in H.
  destruct (allocate malloc p size) as [[p' d]| |] eqn:Ea; cbn [bind fst snd] in H.
  - split; [discriminate|]. intros p'' d' Heq. injection Heq as -> ->.
    destruct (pool_live_ok malloc (cs ++ [Allocate size]) p'' (Got d' size :: t) HM) as (H1 & H2 & _).
    + rewrite pool_run_snoc, E. cbn [bind pool_step fst snd]. rewrite Ea. reflexivity.
    + cbn in H1, H2. apply NoDup_cons_iff in H1 as [H1 _]. split; [exact H1|]. apply H2. left. reflexivity.
  - split; discriminate.
  - destruct H as [(q & H & _)|H]; discriminate.
Qed.
Lemma pool_deallocate_ok malloc cs p t d size : sane_malloc malloc -> pool_run malloc cs = Ok (p, t) -> size <= 2 ^ 63 ->
  ((exists s, In (d, s) (held t) /\ size_class s = size_class size) -> exists q, deallocate p d size = Ok q) /\
  (~ (exists s, In (d, s) (held t) /\ size_class s = size_class size) -> deallocate p d size = Abort).
Proof.
  intros HM E Hs. pose proof (pool_run_inv malloc cs HM _ E) as HP.
  pose proof (deallocate_spec malloc (p, t) d size HP Hs) as H. unfold pool_step in H. cbn [fst snd] in H.
  destruct (deallocate p d size) as [q| |]; cbn [bind] in H.
  - destruct H as [[H _]|[_ H]]; [|discriminate]. split; [eauto|contradiction].
  - destruct H as [[_ (q & H & _)]|[H _]]; [discriminate|]. split; [contradiction|reflexivity].
  - destruct H as [[_ (q & H & _)]|[_ H]]; discriminate.
Qed.
Lemma pool_destroy_ok malloc cs p t : sane_malloc malloc -> pool_run malloc cs = Ok (p, t) ->
  frees_valid (destroy p) /\ underlying_live (destroy p) = [].
Proof.
  intros HM E. pose proof (pool_run_inv malloc cs HM _ E) as (Lu & Lf & Hv & Hn & PU & PC & HS). cbn [fst snd] in *.
  destruct (free_lists (used_blocks p) 0 (hist p) (blocks 0 (free_blocks p)) Hv Hn PU) as (Hv1 & P1 & Hn1).
  destruct (free_lists (free_blocks p) 0 _ [] Hv1 Hn1) as (Hv2 & P2 & _); [rewrite app_nil_r; exact P1|].
  split; [exact Hv2|]. apply Permutation_nil, Permutation_sym, P2.
Qed.
Lemma pool_allocate_fails_only malloc cs p t size : sane_malloc malloc -> pool_run malloc cs = Ok (p, t) -> size <= 2 ^ 63 ->
  allocate malloc p size = Abort ->
  exists h, malloc h (size_class size) = None /\ Permutation (underlying_live h) (map (fun x => (fst x, size_class (snd x))) (held t)).
Proof.
  intros HM E Hs HA. pose proof (pool_run_inv malloc cs HM _ E) as (Lu & Lf & Hv & Hn & PU & PC & HS). cbn [fst snd] in *.
  unfold allocate in HA. destruct (shift_for_spec size Hs) as (k & Ek & Bk & Hk & _). rewrite Ek in HA. cbn [bind] in HA.
  destruct (zget_in_range (free_blocks p) k) as (fl & Ef); [lia|]. destruct (zget_in_range (used_blocks p) k) as (ul & Eu); [lia|]. rewrite Ef, Eu in HA. cbn [bind] in HA.
  destruct (back_pop fl) as [[fl' d]|]; [rewrite (zset_list _ _ _ _ Eu), (zset_list _ _ _ _ Ef) in HA; discriminate|].
  destruct (malloc (hist p) (2 ^ k)); [rewrite (zset_list _ _ _ _ Eu) in HA; discriminate|].
  exists (call_underlying_frees 0 (free_blocks p) (hist p)). rewrite <- Hk.
  destruct (malloc (call_underlying_frees 0 (free_blocks p) (hist p)) (2 ^ k)); [rewrite (zset_list _ _ _ _ Eu) in HA; discriminate|]. split; [reflexivity|].
  destruct (free_lists (free_blocks p) 0 (hist p) (blocks 0 (used_blocks p)) Hv Hn) as (_ & P & _); [rewrite PU; apply Permutation_app_comm|].
  rewrite P. symmetry. exact PC.
Qed.

Lemma fold_max_ge l : forall a, a <= fold_left Z.max l a /\ forall x, In x l -> x <= fold_left Z.max l a.
Proof.
  induction l as [|y l IH]; intros a; cbn; [split; [lia|intros x []]|]. destruct (IH (Z.max a y)) as [H1 H2].
  split; [lia|]. intros x [<-|H]; [lia|auto].
Qed.
Lemma fresh_above_sane (P : list uevent -> bool) :
  sane_malloc (fun h s => if P h then Some (1000 + fold_left Z.max (map fst (underlying_live h)) 0) else None).
Proof.
  intros h s p H Hin. destruct (P h); [|discriminate]. pose proof (proj2 (fold_max_ge (map fst (underlying_live h)) 0) _ Hin) as L.
  set (M := fold_left Z.max (map fst (underlying_live h)) 0) in *. clearbody M. assert (p = 1000 + M) by congruence. lia.
Qed.
