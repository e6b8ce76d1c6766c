(** Proofs about the numbering of a modified mesh. *)
From Verif Require Import Prelude M_Array M_Scan M_Map M_Align M_Graph M_Adj M_Mark M_Swap3d M_Modify S_Scan S_Map S_Graph S_Adj S_Modify P_Array P_Scan P_Fan P_Map P_Map2 P_SwapTopo.
Local Open Scope Z_scope.

Notation item := (Z * Z)%type.
Definition item_dec (x y : item) : {x = y} + {x <> y}. Proof. decide equality; apply Z.eq_dec. Defined.

(** * The pure core *)
Lemma zfromto_join a b c : a <= b -> b <= c -> zfromto a b ++ zfromto b c = zfromto a c.
Proof. intros H1 H2. symmetry. apply zfromto_app. lia. Qed.

Lemma NoDup_app_intro {A} (l m : list A) : NoDup l -> NoDup m -> (forall x, In x l -> ~ In x m) -> NoDup (l ++ m).
Proof.
  induction l as [|a l IH]; intros Hl Hm Hd; cbn [app]; [exact Hm|]. inversion Hl; subst. constructor.
  - rewrite in_app_iff. intros [H'|H']; [contradiction|]. apply (Hd a); [left; reflexivity|exact H'].
  - apply IH; [assumption|exact Hm|]. intros x Hx. apply Hd. right. exact Hx.
Qed.

Lemma NoDup_flat_map {A B} (f : A -> list B) l : NoDup l -> (forall a, In a l -> NoDup (f a)) ->
  (forall a a' b, In a l -> In a' l -> In b (f a) -> In b (f a') -> a = a') -> NoDup (flat_map f l).
Proof.
  induction l as [|a l IH]; intros Hn Hf Hd; cbn [flat_map]; [constructor|]. inversion Hn; subst.
  apply NoDup_app_intro; [apply Hf; left; reflexivity|apply IH; [assumption| |]|].
  - intros; apply Hf; right; assumption.
  - intros; eapply Hd; eauto; right; assumption.
  - intros b Hb Hin. apply in_flat_map in Hin as (a' & Ha' & Hb'). assert (a = a') by (eapply Hd; eauto; [left; reflexivity|right; assumption]). subst. contradiction.
Qed.

Lemma flat_map_app_perm {A B} (f g : A -> list B) l : Permutation (flat_map (fun a => f a ++ g a) l) (flat_map f l ++ flat_map g l).
Proof.
  induction l as [|a l IH]; cbn [flat_map]; [constructor|]. rewrite IH. rewrite <- !app_assoc. apply Permutation_app_head. rewrite !app_assoc. apply Permutation_app_tail. apply Permutation_app_comm.
Qed.

Lemma flat_map_flat_map {A B C} (f : A -> list B) (g : B -> list C) l : flat_map g (flat_map f l) = flat_map (fun a => flat_map g (f a)) l.
Proof. induction l as [|a l IH]; cbn [flat_map]; [reflexivity|]. rewrite flat_map_app, IH. reflexivity. Qed.

Section Core.
  Variables (nn : item -> Z) (rp : item -> Z) (self : Z -> Z) (nold : Z) (counts : list Z) (ITEMS : list item) (IT : Z -> list item).
  Definition sumn (l : list item) : Z := zsum (map nn l).
  Lemma sumn_app l m : sumn (l ++ m) = sumn l + sumn m. Proof. unfold sumn. rewrite map_app, zsum_app. reflexivity. Qed.
  Lemma sumn_cons x m : sumn (x :: m) = nn x + sumn m. Proof. reflexivity. Qed.
  Definition off (r : Z) : Z := match zget (offset_scan counts) r with Ok o => o | _ => 0 end.
  Fixpoint ahead (l : list item) (x : item) : Z := match l with [] => 0 | y :: l => if item_dec y x then 0 else nn y + ahead l x end.
  Definition ord (x : item) : Z := ahead (IT (rp x)) x.
  Definition start (x : item) : Z := off (rp x) + ord x + self (rp x).
  Definition block (x : item) : list Z := zfromto (start x) (start x + nn x).
  Lemma ahead_split l1 x l2 : ~ In x l1 -> ahead (l1 ++ x :: l2) x = sumn l1.
  Proof.
    induction l1 as [|y l1 IH]; intros H; cbn [app ahead]; [destruct (item_dec x x); [reflexivity|congruence]|].
    destruct (item_dec y x) as [->|]; [exfalso; apply H; left; reflexivity|]. rewrite IH by (intros ?; apply H; right; assumption). reflexivity.
  Qed.
  Hypothesis Hnold : 0 <= nold.
  Hypothesis Hnn : forall x, In x ITEMS -> 0 <= nn x.
  Hypothesis Hrp : forall x, In x ITEMS -> 0 <= rp x < nold.
  Hypothesis Hself : forall r, self r = 0 \/ self r = 1.
  Hypothesis Hcl : zlen counts = nold.
  Hypothesis Hnd : NoDup ITEMS.
  Hypothesis Hitd : forall r, 0 <= r < nold -> NoDup (IT r).
  Hypothesis Hit : forall r, 0 <= r < nold -> forall x, In x (IT r) <-> In x ITEMS /\ rp x = r.
  Hypothesis Hcounts : forall r, 0 <= r < nold -> zget counts r = Ok (self r + sumn (filter (fun x => rp x =? r) ITEMS)).

  Lemma sumn_perm l m : Permutation l m -> sumn l = sumn m.
  Proof. unfold sumn, zsum. intros H. induction H; cbn [map fold_right] in *; lia. Qed.
  Lemma sumn_nonneg l : (forall x, In x l -> In x ITEMS) -> 0 <= sumn l.
  Proof. unfold sumn. intros H. apply zsum_nonneg. apply Forall_forall. intros z Hz. apply in_map_iff in Hz as (x & <- & Hx). apply Hnn, H, Hx. Qed.
  Lemma it_perm r : 0 <= r < nold -> Permutation (IT r) (filter (fun x => rp x =? r) ITEMS).
  Proof.
    intros Hr. apply NoDup_Permutation; [apply Hitd, Hr|apply NoDup_filter, Hnd|]. intros x. rewrite (Hit r Hr), filter_In, Z.eqb_eq. reflexivity.
  Qed.
  Lemma off_step r : 0 <= r < nold -> off (r + 1) = off r + self r + sumn (IT r).
  Proof.
    intros Hr. destruct (offset_scan_step counts r _ (Hcounts r Hr)) as (s & E1 & E2). unfold off. rewrite E1, E2. rewrite (sumn_perm _ _ (it_perm r Hr)). lia.
  Qed.
  Lemma off_mono a b : 0 <= a -> a <= b -> b <= nold -> off a <= off b.
  Proof.
    intros Ha Hab Hb. replace b with (a + Z.of_nat (Z.to_nat (b - a))) in * by lia. revert Hb. generalize (Z.to_nat (b - a)) as k. induction k as [|k IH]; intros Hb; [replace (a + Z.of_nat 0) with a by lia; lia|].
    replace (a + Z.of_nat (S k)) with (a + Z.of_nat k + 1) by lia. rewrite off_step by lia. pose proof (IH ltac:(lia)). pose proof (sumn_nonneg (IT (a + Z.of_nat k))) as Hs. specialize (Hself (a + Z.of_nat k)).
    assert (0 <= sumn (IT (a + Z.of_nat k))) by (apply Hs; intros x Hx; apply Hit in Hx; [tauto|lia]). lia.
  Qed.
  Lemma off_0 : off 0 = 0. Proof. unfold off. reflexivity. Qed.
  Lemma off_total : off nold = zsum counts.
  Proof. unfold off. pose proof (offset_scan_last counts) as L. unfold last_of in L. rewrite offset_scan_length, Hcl in L. replace (nold + 1 - 1) with nold in L by lia. rewrite L. reflexivity. Qed.

  Lemma ord_split r l1 x l2 : 0 <= r < nold -> IT r = l1 ++ x :: l2 -> rp x = r /\ ord x = sumn l1.
  Proof.
    intros Hr E. assert (In x (IT r)) as Hx by (rewrite E; apply in_or_app; right; left; reflexivity). apply (Hit r Hr) in Hx as [Hx <-]. split; [reflexivity|]. unfold ord. rewrite E. apply ahead_split.
    pose proof (Hitd _ Hr) as N. rewrite E in N. apply NoDup_remove_2 in N. intros H. apply N, in_or_app. left. exact H.
  Qed.
  Lemma blocks_of r : 0 <= r < nold -> forall l2 l1, IT r = l1 ++ l2 -> flat_map block l2 = zfromto (off r + self r + sumn l1) (off r + self r + sumn (IT r)).
  Proof.
    intros Hr. induction l2 as [|x l2 IH]; intros l1 E; cbn [flat_map].
    - rewrite app_nil_r in E. rewrite E. rewrite zfromto_nil by lia. reflexivity.
    - destruct (ord_split r l1 x l2 Hr E) as [R O]. rewrite (IH (l1 ++ [x])) by (rewrite <- app_assoc; exact E). rewrite sumn_app, sumn_cons. unfold block, start. rewrite R, O. change (sumn []) with 0.
      assert (forall y, In y (IT r) -> In y ITEMS) as HI by (intros y Hy; apply (Hit r Hr) in Hy; tauto).
      assert (0 <= nn x) by (apply Hnn, HI; rewrite E; apply in_or_app; right; left; reflexivity).
      assert (0 <= sumn l2) by (apply sumn_nonneg; intros y Hy; apply HI; rewrite E; apply in_or_app; right; right; exact Hy).
      rewrite E, sumn_app, sumn_cons. replace (off r + sumn l1 + self r) with (off r + self r + sumn l1) by lia.
      replace (off r + self r + sumn l1 + nn x) with (off r + self r + (sumn l1 + (nn x + 0))) by lia. rewrite zfromto_join by lia. f_equal.
  Qed.
  Lemma block_range x : In x ITEMS -> off (rp x) + self (rp x) <= start x /\ start x + nn x <= off (rp x + 1).
  Proof.
    intros Hx. pose proof (Hrp x Hx) as Hr. assert (In x (IT (rp x))) as Hi by (apply Hit; [exact Hr|tauto]).
    apply in_split in Hi as (l1 & l2 & E). destruct (ord_split _ _ _ _ Hr E) as [_ O]. rewrite off_step by exact Hr. unfold start. rewrite O, E, sumn_app, sumn_cons.
    assert (forall y, In y (IT (rp x)) -> In y ITEMS) as HI by (intros y Hy; apply (Hit _ Hr) in Hy; tauto).
    assert (0 <= sumn l1) by (apply sumn_nonneg; intros y Hy; apply HI; rewrite E; apply in_or_app; left; exact Hy).
    assert (0 <= sumn l2) by (apply sumn_nonneg; intros y Hy; apply HI; rewrite E; apply in_or_app; right; right; exact Hy). lia.
  Qed.
  Lemma numbers_upto b : 0 <= b -> b <= nold -> zrange (off b) = flat_map (fun r => zfromto (off r) (off r + self r) ++ flat_map block (IT r)) (zrange b).
  Proof.
    intros Hb. replace b with (Z.of_nat (Z.to_nat b)) by lia. generalize (Z.to_nat b) as k. induction k as [|k IH]; intros Hk; [change (Z.of_nat 0) with 0; rewrite off_0; reflexivity|].
    replace (Z.of_nat (S k)) with (Z.of_nat k + 1) by lia. rewrite zrange_succ by lia. rewrite flat_map_app. cbn [flat_map]. rewrite app_nil_r, <- IH by lia.
    rewrite (blocks_of (Z.of_nat k) ltac:(lia) (IT (Z.of_nat k)) []) by reflexivity. change (sumn []) with 0. rewrite off_step by lia.
    pose proof (off_mono 0 (Z.of_nat k) ltac:(lia) ltac:(lia) ltac:(lia)) as M. rewrite off_0 in M. specialize (Hself (Z.of_nat k)).
    assert (0 <= sumn (IT (Z.of_nat k))) by (apply sumn_nonneg; intros y Hy; apply Hit in Hy; [tauto|lia]).
    rewrite Z.add_0_r. rewrite zfromto_join by lia. rewrite <- !zfromto_0. rewrite zfromto_join by lia. reflexivity.
  Qed.
  Lemma items_perm : Permutation (flat_map IT (zrange nold)) ITEMS.
  Proof.
    apply NoDup_Permutation; [|exact Hnd|].
    - apply NoDup_flat_map; [apply zrange_NoDup| |].
      + intros r Hr. apply in_zrange in Hr. apply Hitd, Hr.
      + intros r r' x Hr Hr' H1 H2. apply in_zrange in Hr. apply in_zrange in Hr'. apply Hit in H1; [|exact Hr]. apply Hit in H2; [|exact Hr']. destruct H1, H2; congruence.
    - intros x. rewrite in_flat_map. split.
      + intros (r & Hr & Hx). apply in_zrange in Hr. apply Hit in Hx; [tauto|exact Hr].
      + intros Hx. exists (rp x). split; [apply in_zrange, Hrp, Hx|]. apply Hit; [apply Hrp, Hx|tauto].
  Qed.
  Lemma self_blocks l : flat_map (fun r => zfromto (off r) (off r + self r)) l = map off (filter (fun r => self r =? 1) l).
  Proof.
    induction l as [|r l IH]; cbn [flat_map filter]; [reflexivity|]. rewrite IH. destruct (Hself r) as [E|E]; rewrite E; cbn [Z.eqb Pos.eqb].
    - rewrite zfromto_nil by lia. reflexivity.
    - rewrite zfromto_cons by lia. rewrite zfromto_nil by lia. reflexivity.
  Qed.
  Lemma core_perm : Permutation (map off (filter (fun r => self r =? 1) (zrange nold)) ++ flat_map block ITEMS) (zrange (zsum counts)).
  Proof.
    rewrite <- off_total. rewrite (numbers_upto nold) by lia. symmetry. rewrite flat_map_app_perm. rewrite self_blocks. apply Permutation_app_head.
    rewrite <- flat_map_flat_map. apply Permutation_flat_map. apply items_perm.
  Qed.
End Core.

(** * Arrays of arrays *)
Lemma at_map4 (f : Z -> option (list Z)) d : at_ (map f (zrange 4)) d = if (0 <=? d) && (d <? 4) then f d else None.
Proof.
  unfold at_. rewrite zget_map. destruct (Z.leb_spec 0 d), (Z.ltb_spec d 4); cbn [andb].
  - rewrite zget_zrange by lia. reflexivity.
  - destruct (zget (zrange 4) d) eqn:E; try reflexivity. apply zget_bounds in E. change (zlen (zrange 4)) with 4 in E. lia.
  - destruct (zget (zrange 4) d) eqn:E; try reflexivity. apply zget_bounds in E. lia.
  - lia.
Qed.
Lemma at_range f d l : at_ f d = Some l -> 0 <= d < zlen f.
Proof. unfold at_. destruct (zget f d) eqn:E; try discriminate. intros _. eapply zget_bounds, E. Qed.
Lemma exists_at f d : exists_ f d = true -> exists l, at_ f d = Some l.
Proof. unfold exists_. destruct (at_ f d) as [l|]; [eauto|discriminate]. Qed.
Lemma at_set (w : few) d l w' : zset w d (Some l) = Ok w' -> forall k, at_ w' k = if k =? d then Some l else at_ w k.
Proof.
  intros E k. unfold at_. destruct (Z.eqb_spec k d) as [->|Hn]; [rewrite (zset_get_eq _ _ _ _ E); reflexivity|rewrite (zset_get_ne _ _ k _ _ E) by congruence; reflexivity].
Qed.

Definition look (w : few) (d md : Z) : res Z := l <- the w d ;; zget l md.
Definition key (e : Z * Z * Z) : Z * Z := fst e.
Lemma store_orders es : forall w, NoDup (map key es) ->
  (forall d md v, In (d, md, v) es -> exists l, at_ w d = Some l /\ 0 <= md < zlen l) ->
  exists w', foldM store_order es w = Ok w' /\ zlen w' = zlen w /\
    (forall d, option_map zlen (at_ w' d) = option_map zlen (at_ w d)) /\
    (forall d md v, In (d, md, v) es -> look w' d md = Ok v) /\
    (forall d md, ~ In (d, md) (map key es) -> look w' d md = look w d md).
Proof.
  induction es as [|[[d md] v] es IH]; intros w Hn Hr; cbn [foldM map] in *.
  - exists w. repeat (split; [reflexivity|]). split; [intros ? ? ? []|reflexivity].
  - inversion Hn as [|? ? Hni Hn']; subst. destruct (Hr d md v) as (l & El & Hl); [left; reflexivity|].
    destruct (zset_in_range l md v Hl) as (l' & El'). destruct (zset_in_range w d (Some l') (at_range _ _ _ El)) as (w1 & E1).
    assert (store_order w (d, md, v) = Ok w1) as -> by (unfold store_order, the; rewrite El; cbn [bind]; rewrite El'; cbn [bind]; exact E1). cbn [bind]. pose proof (at_set _ _ _ _ E1) as A1.
    destruct (IH w1 Hn') as (w2 & E2 & L2 & S2 & G2 & F2).
    { intros d2 md2 v2 Hin. destruct (Hr d2 md2 v2) as (l2 & El2 & Hl2); [right; exact Hin|]. rewrite A1. destruct (Z.eqb_spec d2 d) as [->|]; [|exists l2; tauto].
      exists l'. split; [reflexivity|]. rewrite El in El2. injection El2 as <-. rewrite (zset_zlen _ _ _ _ El'). exact Hl2. }
    exists w2. split; [exact E2|]. split; [rewrite L2; eapply zset_zlen; eassumption|]. split; [|split].
    + intros k. rewrite S2, A1. destruct (Z.eqb_spec k d) as [->|]; [|reflexivity]. rewrite El. cbn [option_map]. rewrite (zset_zlen _ _ _ _ El'). reflexivity.
    + intros d2 md2 v2 [Heq|Hin]; [|apply G2, Hin]. injection Heq as <- <- <-. rewrite F2 by exact Hni. unfold look, the. rewrite A1, Z.eqb_refl. cbn [bind]. eapply zset_get_eq; eassumption.
    + intros d2 md2 Hni2. rewrite F2 by (intros ?; apply Hni2; right; assumption). unfold look, the. rewrite A1. destruct (Z.eqb_spec d2 d) as [->|]; [|reflexivity]. rewrite El. cbn [bind].
      apply (zset_get_ne _ _ _ _ _ El'). intros <-. apply Hni2. left. reflexivity.
Qed.

(** * The lists of modified entities *)
Definition val (r : res Z) : Z := match r with Ok x => x | _ => 0 end.
Definition list_at (f : few) (d : Z) : list Z := match at_ f d with Some l => l | None => [] end.
Definition items_d (mods2mds mods2prods : few) (d : Z) : list item := if exists_ mods2prods d then map (pair d) (zrange (zlen (list_at mods2mds d))) else [].
Definition items (mods2mds mods2prods : few) : list item := flat_map (items_d mods2mds mods2prods) (zrange 4).
Definition nn_ (mods2prods : few) (x : item) : Z := val (zget (list_at mods2prods (fst x)) (snd x + 1)) - val (zget (list_at mods2prods (fst x)) (snd x)).
Definition mdof (mods2mds : few) (x : item) : Z := val (zget (list_at mods2mds (fst x)) (snd x)).
Definition reps_ (ms : mesh_view) (ent_dim : Z) (mods2mds : few) (d : Z) : list Z := match get_mods2reps ms ent_dim d (list_at mods2mds d) with Ok l => l | _ => [] end.
Definition degs_ (mods2prods : few) (d : Z) : list Z := match get_degrees (list_at mods2prods d) with Ok l => l | _ => [] end.
Definition rp_ (ms : mesh_view) (ent_dim : Z) (mods2mds : few) (x : item) : Z := val (zget (reps_ ms ent_dim mods2mds (fst x)) (snd x)).
Definition inv_ (ms : mesh_view) (mods2mds : few) (d : Z) : list Z := match invert_injective_map (list_at mods2mds d) (nents ms d) with Ok l => l | _ => [] end.

Lemma in_items_d mm mp d x : In x (items_d mm mp d) <-> fst x = d /\ exists_ mp d = true /\ 0 <= snd x < zlen (list_at mm d).
Proof.
  unfold items_d. destruct (exists_ mp d); [|cbn; split; [tauto|intros (_ & ? & _); discriminate]]. rewrite in_map_iff. split.
  - intros (m & <- & Hm). apply in_zrange in Hm. cbn. tauto.
  - destruct x as [d' m]. cbn. intros (-> & _ & Hm). exists m. split; [reflexivity|]. apply in_zrange, Hm.
Qed.
Lemma in_items mm mp x : zlen mp = 4 -> In x (items mm mp) <-> exists_ mp (fst x) = true /\ 0 <= snd x < zlen (list_at mm (fst x)).
Proof.
  intros L. unfold items. rewrite in_flat_map. split.
  - intros (d & _ & H). apply in_items_d in H. destruct H as (<- & H). exact H.
  - intros H. exists (fst x). split; [|apply in_items_d; tauto]. apply in_zrange. destruct H as [H _]. apply exists_at in H as (l & E). apply at_range in E. rewrite L in E. exact E.
Qed.
Lemma items_d_NoDup mm mp d : NoDup (items_d mm mp d).
Proof. unfold items_d. destruct (exists_ mp d); [|constructor]. apply FinFun.Injective_map_NoDup; [intros a b H; injection H; auto|apply zrange_NoDup]. Qed.
Lemma items_NoDup mm mp : NoDup (items mm mp).
Proof.
  apply NoDup_flat_map; [apply zrange_NoDup|intros; apply items_d_NoDup|]. intros a a' b _ _ H1 H2. apply in_items_d in H1. apply in_items_d in H2. destruct H1, H2; congruence.
Qed.

Lemma nondecreasing f : (forall i lo hi, zget f i = Ok lo -> zget f (i + 1) = Ok hi -> lo <= hi) -> forall i j a b, i <= j -> zget f i = Ok a -> zget f j = Ok b -> a <= b.
Proof.
  intros H i j a b Hij Ha. replace j with (i + Z.of_nat (Z.to_nat (j - i))) by lia. generalize (Z.to_nat (j - i)) as k. clear Hij j. intros k. revert b. induction k as [|k IH]; intros b Hb.
  - replace (i + Z.of_nat 0) with i in Hb by lia. rewrite Ha in Hb. injection Hb as ->. lia.
  - pose proof (zget_bounds _ _ _ Ha). pose proof (zget_bounds _ _ _ Hb). destruct (zget_in_range f (i + Z.of_nat k)) as (c & Hc); [lia|]. specialize (IH c Hc).
    specialize (H (i + Z.of_nat k) c b Hc). replace (i + Z.of_nat k + 1) with (i + Z.of_nat (S k)) in H by lia. specialize (H Hb). lia.
Qed.
Lemma numbered_from_le l : forall start total, numbered_from start l total -> start <= total.
Proof.
  induction l as [|[p|] l IH]; intros s t H; cbn [numbered_from] in H; [lia| |apply IH, H]. destruct H as (H1 & H2 & mid & H3 & H4). apply IH in H4. unfold last_of in H3.
  pose proof (zget_bounds _ _ _ H3). assert (s <= mid) by (apply (nondecreasing p H2 0 (zlen p - 1)); [lia|exact H1|exact H3]). lia.
Qed.
Lemma numbered_from_in l : forall start total, numbered_from start l total -> forall d p, at_ l d = Some p -> 1 <= zlen p /\ forall i lo hi, zget p i = Ok lo -> zget p (i + 1) = Ok hi -> lo <= hi.
Proof.
  induction l as [|o l IH]; intros s t H d p Hp; [apply at_range in Hp; change (zlen (@nil (option (list Z)))) with 0 in Hp; lia|].
  pose proof (at_range _ _ _ Hp) as B. destruct (Z.eq_dec d 0) as [->|Hd].
  - unfold at_ in Hp. cbn in Hp. subst o. cbn [numbered_from] in H. destruct H as (H1 & H2 & _). split; [apply zget_bounds in H1; lia|exact H2].
  - assert (at_ l (d - 1) = Some p) as Hp'.
    { unfold at_ in *. replace (zget l (d - 1)) with (zget (o :: l) d); [exact Hp|]. change (o :: l) with ([o] ++ l). rewrite zget_app_r by (change (zlen [o]) with 1; lia). reflexivity. }
    destruct o as [q|]; cbn [numbered_from] in H; [|eapply IH; eassumption]. destruct H as (_ & _ & mid & _ & H). eapply IH; eassumption.
Qed.

Lemma tabulate_rel {A} n (f : Z -> res A) (P : Z -> A -> Prop) : 0 <= n -> (forall i, 0 <= i < n -> exists a, f i = Ok a /\ P i a) ->
  exists r, tabulate n f = Ok r /\ zlen r = n /\ forall i, 0 <= i < n -> exists a, zget r i = Ok a /\ P i a.
Proof.
  intros Hn H. assert (exists r, tabulate n f = Ok r) as (r & E).
  { unfold tabulate. assert (forall l, (forall i, In i l -> 0 <= i < n) -> exists r, mapM f l = Ok r) as HH.
    { induction l as [|i l IH]; intros Hl; [exists []; reflexivity|]. destruct (H i) as (a & Ea & _); [apply Hl; left; reflexivity|]. destruct IH as (r & Er); [intros; apply Hl; right; assumption|]. exists (a :: r). cbn [mapM]. rewrite Ea. cbn [bind]. rewrite Er. reflexivity. }
    apply HH. intros i Hi. apply in_zrange, Hi. }
  exists r. split; [exact E|]. apply tabulate_ok in E as [L G]; [|exact Hn]. split; [exact L|]. intros i Hi. destruct (G i Hi) as (a & E1 & E2). destruct (H i Hi) as (a' & E3 & E4). exists a. split; [exact E2|]. congruence.
Qed.

Section Gen.
  Variables (ms : mesh_view) (ent_dim : Z) (mm mp : few) (nprods : Z).
  Hypothesis Hc : consistent ms.
  Hypothesis Hed : 0 <= ent_dim <= mesh_dim ms.
  Hypothesis Hml : modified_lists ms mm mp nprods.
  Definition modified (d md : Z) : Prop := exists_ mp d = true /\ In md (list_at mm d).
  Hypothesis Hrep : forall d md, modified d md -> exists rep, represents ms ent_dim d md rep.
  Let ITEMS := items mm mp. Let nn := nn_ mp. Let md_ := mdof mm. Let rp := rp_ ms ent_dim mm. Let nold := nents ms ent_dim.

  Lemma mp4 : zlen mp = 4. Proof. apply Hml. Qed.
  Lemma have_facts d : exists_ mp d = true -> 0 <= d <= mesh_dim ms /\ at_ mm d = Some (list_at mm d) /\ at_ mp d = Some (list_at mp d) /\
    zlen (list_at mp d) = zlen (list_at mm d) + 1 /\ NoDup (list_at mm d) /\ (forall md, In md (list_at mm d) -> 0 <= md < nents ms d) /\
    (forall i lo hi, zget (list_at mp d) i = Ok lo -> zget (list_at mp d) (i + 1) = Ok hi -> lo <= hi).
  Proof.
    intros H. apply exists_at in H as (p & E). pose proof (at_range _ _ _ E) as B. destruct Hml as (_ & L & N & HH). destruct (HH d p E) as (Hd & l & El & Ll & ND & R). unfold list_at. rewrite E, El.
    split; [lia|]. split; [reflexivity|]. split; [reflexivity|]. split; [exact Ll|]. split; [exact ND|]. split; [exact R|]. apply (numbered_from_in _ _ _ N d p E).
  Qed.
  Lemma nents_nonneg d : 0 <= d <= mesh_dim ms -> 0 <= nents ms d. Proof. intros H. apply Hc, H. Qed.
  Lemma degs_facts d : exists_ mp d = true -> get_degrees (list_at mp d) = Ok (degs_ mp d) /\ zlen (degs_ mp d) = zlen (list_at mm d) /\
    forall m, 0 <= m < zlen (list_at mm d) -> zget (degs_ mp d) m = Ok (nn (d, m)) /\ 0 <= nn (d, m).
  Proof.
    intros H. destruct (have_facts d H) as (Hd & Em & Ep & L & ND & R & Mono). pose proof (zlen_nonneg (list_at mm d)). destruct (get_degrees_spec (list_at mp d)) as (g & E & Lg & G); [lia|].
    unfold degs_. rewrite E. split; [reflexivity|]. split; [lia|]. intros m Hm. destruct (zget_in_range (list_at mp d) m) as (lo & Elo); [lia|]. destruct (zget_in_range (list_at mp d) (m + 1)) as (hi & Ehi); [lia|].
    unfold nn, nn_. cbn [fst snd]. rewrite Elo, Ehi. cbn [val]. split; [apply G; assumption|]. specialize (Mono m lo hi Elo Ehi). lia.
  Qed.
  Lemma mds_get d m : 0 <= m < zlen (list_at mm d) -> zget (list_at mm d) m = Ok (md_ (d, m)) /\ In (md_ (d, m)) (list_at mm d).
  Proof. intros Hm. destruct (zget_in_range _ _ Hm) as (md & E). unfold md_, mdof. cbn [fst snd]. rewrite E. split; [reflexivity|]. cbn [val]. eapply zget_In, E. Qed.
  Lemma reps_facts d : exists_ mp d = true -> get_mods2reps ms ent_dim d (list_at mm d) = Ok (reps_ ms ent_dim mm d) /\ zlen (reps_ ms ent_dim mm d) = zlen (list_at mm d) /\
    forall m, 0 <= m < zlen (list_at mm d) -> zget (reps_ ms ent_dim mm d) m = Ok (rp (d, m)) /\ represents ms ent_dim d (md_ (d, m)) (rp (d, m)).
  Proof.
    intros H. destruct (have_facts d H) as (Hd & Em & Ep & L & ND & R & Mono). pose proof (zlen_nonneg (list_at mm d)) as HL.
    assert (exists reps, get_mods2reps ms ent_dim d (list_at mm d) = Ok reps /\ zlen reps = zlen (list_at mm d) /\
      forall m, 0 <= m < zlen (list_at mm d) -> exists rep, zget reps m = Ok rep /\ represents ms ent_dim d (md_ (d, m)) rep) as (reps & E & Lr & G).
    { unfold get_mods2reps. destruct (Z.eqb_spec d ent_dim) as [->|Hne].
      - exists (list_at mm ent_dim). split; [reflexivity|]. split; [reflexivity|]. intros m Hm. destruct (mds_get ent_dim m Hm) as [E1 _]. exists (md_ (ent_dim, m)). split; [exact E1|]. left. split; reflexivity.
      - set (g := fun m => md <- zget (list_at mm d) m ;; first <- zget (adj_a2ab (ask_up ms d ent_dim)) md ;; zget (adj_ab2b (ask_up ms d ent_dim)) first).
        set (g' := fun m => md <- zget (list_at mm d) m ;; zget (ask_down ms d ent_dim) (md * degree ms d ent_dim)).
        assert (forall m, 0 <= m < zlen (list_at mm d) -> exists rep, (if ent_dim >? d then g m else g' m) = Ok rep /\ represents ms ent_dim d (md_ (d, m)) rep) as HG.
        { intros m Hm. destruct (mds_get d m Hm) as [E1 Hin]. destruct (Hrep d (md_ (d, m))) as (rep & Hre); [split; assumption|]. exists rep. split; [|exact Hre].
          unfold g, g'. rewrite E1. cbn [bind]. rewrite Z.gtb_ltb. destruct Hre as [(-> & _)|[(Hlt & os & Et)|(Hlt & Et)]]; [congruence| |].
          - destruct (Z.ltb_spec d ent_dim); [|lia]. unfold adj_targets, targets in Et. cbn [M_Graph.a2ab M_Graph.ab2b] in Et. apply bind_ok in Et as (lo & Elo & Et). apply bind_ok in Et as (hi & Ehi & Et). rewrite Elo. cbn [bind].
            destruct (Z_lt_le_dec lo hi) as [Hl|Hl]; [rewrite zfromto_cons in Et by lia|rewrite zfromto_nil in Et by lia; discriminate]. cbn [mapM] in Et. apply bind_ok in Et as (y & Ey & Et). apply bind_ok in Et as (ys & _ & Et). injection Et as -> _. exact Ey.
          - destruct (Z.ltb_spec d ent_dim); [lia|]. exact Et. }
        destruct (ent_dim >? d); apply (tabulate_rel _ _ (fun m rep => represents ms ent_dim d (md_ (d, m)) rep)); assumption. }
    assert (reps_ ms ent_dim mm d = reps) as ER by (unfold reps_; rewrite E; reflexivity). rewrite ER. split; [exact E|]. split; [exact Lr|]. intros m Hm. destruct (G m Hm) as (rep & E1 & E2). unfold rp, rp_. cbn [fst snd]. rewrite ER, E1. cbn [val]. tauto.
  Qed.

  (** ** representatives *)
  Lemma represents_range d md rep : exists_ mp d = true -> 0 <= md < nents ms d -> represents ms ent_dim d md rep -> 0 <= rep < nold.
  Proof.
    intros H Hmd Hre. destruct (have_facts d H) as (Hd & _). destruct Hre as [(-> & ->)|[(Hlt & os & Et)|(Hlt & Et)]]; [exact Hmd| |].
    - destruct Hc as (_ & _ & HA). destruct (HA d ent_dim) as (Hdeg & Ldn & Rdn & (_ & _ & U)); [lia|lia|lia|]. destruct (U md Hmd) as [T _]. rewrite T in Et. injection Et as Et.
      assert (In rep (map (fun hl => hl / degree ms ent_dim d) (uses_of (ask_down ms ent_dim d) md))) as Hin by (rewrite Et; left; reflexivity).
      apply in_map_iff in Hin as (hl & <- & Hhl). unfold uses_of in Hhl. apply filter_In in Hhl as [Hhl _]. apply in_zrange in Hhl. rewrite Ldn in Hhl. unfold nold. split; [apply Z.div_pos; lia|]. apply Z.div_lt_upper_bound; nia.
    - destruct Hc as (_ & _ & HA). destruct (HA ent_dim d) as (Hdeg & Ldn & Rdn & _); [lia|lia|lia|]. eapply Rdn, Et.
  Qed.
  Lemma item_facts x : In x ITEMS -> exists_ mp (fst x) = true /\ 0 <= snd x < zlen (list_at mm (fst x)) /\ 0 <= nn x /\ 0 <= rp x < nold /\ represents ms ent_dim (fst x) (md_ x) (rp x) /\
    zget (list_at mm (fst x)) (snd x) = Ok (md_ x) /\ 0 <= md_ x < nents ms (fst x) /\ zget (reps_ ms ent_dim mm (fst x)) (snd x) = Ok (rp x).
  Proof.
    intros Hx. apply in_items in Hx as [H1 H2]; [|apply mp4]. destruct x as [d m]. cbn [fst snd] in *. destruct (degs_facts d H1) as (_ & _ & D). destruct (reps_facts d H1) as (_ & _ & R). destruct (mds_get d m H2) as [M1 M2].
    destruct (have_facts d H1) as (_ & _ & _ & _ & _ & RR & _). destruct (D m H2). destruct (R m H2) as [R1 R2]. split; [exact H1|]. split; [exact H2|]. split; [assumption|]. split; [eapply represents_range; eauto|]. split; [exact R2|]. split; [exact M1|]. split; [apply RR, M2|exact R1].
  Qed.
  Lemma represents_fun d md r r' : represents ms ent_dim d md r -> represents ms ent_dim d md r' -> r = r'.
  Proof.
    intros [(E1 & ->)|[(Hlt & os & Et)|(Hlt & Et)]] [(E2 & ->)|[(Hlt' & os' & Et')|(Hlt' & Et')]]; try lia; try congruence.
  Qed.
  Lemma md_inj x y : In x ITEMS -> In y ITEMS -> fst x = fst y -> md_ x = md_ y -> x = y.
  Proof.
    intros Hx Hy E1 E2. destruct (item_facts x Hx) as (Ex & Bx & _ & _ & _ & Mx & _). destruct (item_facts y Hy) as (_ & By & _ & _ & _ & My & _). destruct x as [d m], y as [d' m']. cbn [fst snd] in *. subst d'. f_equal.
    destruct (have_facts d Ex) as (_ & _ & _ & _ & ND & _). rewrite <- E2 in My. eapply NoDup_zget; eassumption.
  Qed.

  (** ** counts *)
  Variable same : list Z.
  Definition self_ (r : Z) : Z := if in_dec Z.eq_dec r same then 1 else 0.
  Hypothesis Hsame : forall r, In r same -> 0 <= r < nold.
  Lemma zset_same {A} (l : list A) i v w : zset l i v = Ok w -> forall j, zget w j = if j =? i then Ok v else zget l j.
  Proof. intros E j. destruct (Z.eqb_spec j i) as [->|H]; [eapply zset_get_eq, E|eapply zset_get_ne; [exact E|congruence]]. Qed.
  Let mr := map (fun d => if exists_ mp d then Some (reps_ ms ent_dim mm d) else None) (zrange 4).
  Let mn := map (fun d => if exists_ mp d then Some (degs_ mp d) else None) (zrange 4).
  Lemma at_mr d : exists_ mp d = true -> at_ mr d = Some (reps_ ms ent_dim mm d).
  Proof. intros H. pose proof H as H'. apply exists_at in H' as (p & E). apply at_range in E. rewrite mp4 in E. unfold mr. rewrite at_map4. destruct (Z.leb_spec 0 d), (Z.ltb_spec d 4); try lia. cbn [andb]. rewrite H. reflexivity. Qed.
  Lemma at_mn d : exists_ mp d = true -> at_ mn d = Some (degs_ mp d).
  Proof. intros H. pose proof H as H'. apply exists_at in H' as (p & E). apply at_range in E. rewrite mp4 in E. unfold mn. rewrite at_map4. destruct (Z.leb_spec 0 d), (Z.ltb_spec d 4); try lia. cbn [andb]. rewrite H. reflexivity. Qed.
  Lemma ex_mr d : exists_ mr d = exists_ mp d.
  Proof.
    destruct (exists_ mp d) eqn:H; [unfold exists_; rewrite at_mr by exact H; reflexivity|]. unfold exists_, mr. rewrite at_map4. rewrite H. destruct (_ && _); reflexivity.
  Qed.
  Lemma items_cut : items mm mp = flat_map (items_d mm mp) (zrange (mesh_dim ms + 1)).
  Proof.
    unfold items. destruct Hc as ((H0 & H3) & _). assert (forall d, mesh_dim ms < d -> items_d mm mp d = []) as HE.
    { intros d Hd. unfold items_d. destruct (exists_ mp d) eqn:E; [|reflexivity]. apply have_facts in E. lia. }
    rewrite <- !zfromto_0. rewrite (zfromto_app 0 (mesh_dim ms + 1) 4) by lia. rewrite flat_map_app.
    replace (flat_map (items_d mm mp) (zfromto (mesh_dim ms + 1) 4)) with (@nil item); [apply app_nil_r|]. symmetry.
    assert (forall l, (forall d, In d l -> mesh_dim ms < d) -> flat_map (items_d mm mp) l = []) as HF.
    { induction l as [|d l IH]; intros Hl; cbn [flat_map]; [reflexivity|]. rewrite HE by (apply Hl; left; reflexivity). apply IH. intros; apply Hl; right; assumption. }
    apply HF. intros d Hd. apply in_zfromto in Hd. lia.
  Qed.
  Lemma counts_spec : exists counts, get_rep_counts ms ent_dim mm mr mn same true = Ok counts /\ zlen counts = nold /\
    forall r, 0 <= r < nold -> zget counts r = Ok (self_ r + sumn nn (filter (fun x => rp x =? r) ITEMS)).
  Proof.
    pose proof (nents_nonneg ent_dim Hed) as Hn. unfold get_rep_counts. rewrite filled_ok by exact Hn. cbn [bind].
    destruct Hc as ((Hd0 & Hd3) & Hown & _). destruct (Hown ent_dim Hed) as [_ Lo]. rewrite Lo, Z.eqb_refl. cbn [check bind].
    destruct (forM_invariant (fun i (c : list Z) => zlen c = nold /\ forall r, 0 <= r < nold -> zget c r = Ok (if in_dec Z.eq_dec r (firstn (Z.to_nat i) same) then 1 else 0)) (zlen same) (repeat 0 (Z.to_nat (nents ms ent_dim)))
      (fun counts same_ent => ent <- zget same same_ent ;; own <- Ok true ;; if (own : bool) then zset counts ent 1 else Ok counts)) as (c & Ec & Lc & Gc).
    - apply zlen_nonneg.
    - split; [rewrite zlen_repeat; unfold nold; lia|]. intros r Hr. cbn [Z.to_nat firstn]. rewrite zget_repeat by (unfold nold in Hr; lia). destruct (in_dec Z.eq_dec r []) as [[]|]; reflexivity.
    - intros i c Hi (Lc & Gc). destruct (zget_in_range same i Hi) as (e & Ee). rewrite Ee. cbn [bind]. pose proof (Hsame e (zget_In _ _ _ Ee)) as He. destruct (zset_in_range c e 1) as (c' & Ec'); [lia|]. exists c'. split; [exact Ec'|].
      split; [rewrite (zset_zlen _ _ _ _ Ec'); exact Lc|]. intros r Hr. rewrite (zset_same _ _ _ _ Ec'). replace (Z.to_nat (i + 1)) with (S (Z.to_nat i)) by lia.
      pose proof (firstn_snoc same i e Ee) as FS. replace (Z.to_nat (i + 1)) with (S (Z.to_nat i)) in FS by lia. rewrite FS. destruct (Z.eqb_spec r e) as [->|Hne].
      + destruct (in_dec Z.eq_dec e (firstn (Z.to_nat i) same ++ [e])) as [_|Hno]; [reflexivity|]. exfalso. apply Hno, in_or_app. right; left; reflexivity.
      + rewrite (Gc r Hr). destruct (in_dec Z.eq_dec r (firstn (Z.to_nat i) same)) as [Hy|Hy], (in_dec Z.eq_dec r (firstn (Z.to_nat i) same ++ [e])) as [Hz|Hz]; try reflexivity.
        * exfalso. apply Hz, in_or_app. left; exact Hy.
        * exfalso. apply in_app_or in Hz as [Hz|[->|[]]]; [contradiction|congruence].
    - cbn [bind] in Ec |- *. rewrite Ec. cbn [bind].
      assert (forall r, 0 <= r < nold -> zget c r = Ok (self_ r)) as Gc'.
      { intros r Hr. rewrite (Gc r Hr). unfold zlen. rewrite Nat2Z.id, firstn_all. reflexivity. }
      destruct (forM_invariant (fun d (c : list Z) => zlen c = nold /\ forall r, 0 <= r < nold -> zget c r = Ok (self_ r + sumn nn (filter (fun x => rp x =? r) (flat_map (items_d mm mp) (zrange d))))) (mesh_dim ms + 1) c
        (fun counts mod_dim => if negb (exists_ mr mod_dim) then Ok counts else
           reps <- the mr mod_dim ;; nprods <- the mn mod_dim ;; _ <- check (zlen reps =? zlen nprods) ;;
           forM (zlen reps) counts (fun counts m => rep <- zget reps m ;; n <- zget nprods m ;; own <- Ok true ;; if (own : bool) then c <- zget counts rep ;; zset counts rep (c + n) else Ok counts))) as (c2 & Ec2 & Lc2 & Gc2).
      + lia.
      + split; [exact Lc|]. intros r Hr. rewrite (Gc' r Hr). cbn. f_equal. unfold sumn. cbn. lia.
      + intros d c1 Hd (L1 & G1). rewrite ex_mr. rewrite zrange_succ by lia. rewrite flat_map_app. cbn [flat_map]. rewrite app_nil_r. destruct (exists_ mp d) eqn:Hex.
        * cbn [negb]. unfold the. rewrite at_mr, at_mn by exact Hex. cbn [bind]. destruct (reps_facts d Hex) as (_ & Lr & Gr). destruct (degs_facts d Hex) as (_ & Ld & Gd). rewrite Lr, Ld, Z.eqb_refl. cbn [check bind].
          destruct (forM_invariant (fun i (c : list Z) => zlen c = nold /\ forall r, 0 <= r < nold -> zget c r = Ok (self_ r + sumn nn (filter (fun x => rp x =? r) (flat_map (items_d mm mp) (zrange d) ++ map (pair d) (zrange i))))) (zlen (list_at mm d)) c1
            (fun counts m => rep <- zget (reps_ ms ent_dim mm d) m ;; n <- zget (degs_ mp d) m ;; own <- Ok true ;; if (own : bool) then c <- zget counts rep ;; zset counts rep (c + n) else Ok counts)) as (c2 & Ec2 & Lc2 & Gc2).
          -- apply zlen_nonneg.
          -- split; [exact L1|]. intros r Hr. cbn [map zrange]. change (map (pair d) (zrange 0)) with (@nil item). rewrite app_nil_r. apply G1, Hr.
          -- intros i c3 Hi (L3 & G3). destruct (Gr i Hi) as [Er _]. destruct (Gd i Hi) as [En _]. rewrite Er, En. cbn [bind].
             assert (0 <= rp (d, i) < nold) as Hrp by (apply item_facts; apply in_items; [apply mp4|cbn [fst snd]; tauto]). rewrite (G3 _ Hrp). cbn [bind]. match goal with |- context [zset c3 ?k ?v] => destruct (zset_in_range c3 k v) as (c4 & E4); [lia|] end.
             exists c4. split; [exact E4|]. split; [rewrite (zset_zlen _ _ _ _ E4); exact L3|]. intros r Hr. rewrite (zset_same _ _ _ _ E4). rewrite zrange_succ by lia. rewrite map_app, app_assoc. cbn [map]. rewrite (filter_app _ (_ ++ _)). rewrite sumn_app. cbn [filter].
             destruct (Z.eqb_spec r (rp (d, i))) as [->|Hne].
             ++ rewrite Z.eqb_refl. rewrite sumn_cons. f_equal. change (sumn nn []) with 0. lia.
             ++ rewrite (G3 r Hr). destruct (Z.eqb_spec (rp (d, i)) r); [congruence|]. f_equal. change (sumn nn []) with 0. lia.
          -- exists c2. split; [exact Ec2|]. split; [exact Lc2|]. intros r Hr. rewrite (Gc2 r Hr). unfold items_d at 3. rewrite Hex. reflexivity.
        * cbn [negb]. exists c1. split; [reflexivity|]. split; [exact L1|]. intros r Hr. unfold items_d at 2. rewrite Hex, app_nil_r. apply G1, Hr.
      + exists c2. split; [exact Ec2|]. split; [exact Lc2|]. unfold ITEMS. rewrite items_cut. exact Gc2.
  Qed.

  (** ** order of the products of one representative *)
  Let low r := filter (fun x => (fst x <? ent_dim) && (rp x =? r)) ITEMS.
  Let own r := filter (fun x => (fst x =? ent_dim) && (rp x =? r)) ITEMS.
  Definition index_ d hl := val (zget (inv_ ms mm d) (hl / degree ms d ent_dim)).
  Definition sel_ r d : list item := if exists_ mp d then map (fun hl => (d, index_ d hl)) (filter (fun hl => (0 <=? index_ d hl) && (hl mod degree ms d ent_dim =? 0)) (uses_of (ask_down ms d ent_dim) r)) else [].
  Definition highs r := flat_map (sel_ r) (zfromto (ent_dim + 1) (mesh_dim ms + 1)).
  Definition IT_ r := low r ++ own r ++ highs r.
  Hypothesis Halone : forall x y, In x ITEMS -> In y ITEMS -> rp x = rp y -> fst x < ent_dim -> x = y.

  Lemma inv_facts d : exists_ mp d = true -> invert_injective_map (list_at mm d) (nents ms d) = Ok (inv_ ms mm d) /\ zlen (inv_ ms mm d) = nents ms d /\
    forall md, 0 <= md < nents ms d -> exists m, zget (inv_ ms mm d) md = Ok m /\ (0 <= m -> 0 <= m < zlen (list_at mm d) /\ md_ (d, m) = md) /\ (forall k, 0 <= k < zlen (list_at mm d) -> md_ (d, k) = md -> m = k).
  Proof.
    intros H. destruct (have_facts d H) as (Hd & _ & _ & _ & ND & R & _). destruct (invert_injective_map_spec (list_at mm d) (nents ms d) (nents_nonneg d Hd) ND R) as (i & E & L & G & F).
    unfold inv_. rewrite E. split; [reflexivity|]. split; [exact L|]. intros md Hmd. destruct (in_dec Z.eq_dec md (list_at mm d)) as [Hin|Hni].
    - apply In_zget in Hin as (m & Em). exists m. split; [apply G, Em|]. split.
      + intros _. pose proof (zget_bounds _ _ _ Em) as B. split; [exact B|]. destruct (mds_get d m B) as [E1 _]. congruence.
      + intros k Hk Ek. destruct (mds_get d k Hk) as [E1 _]. rewrite Ek in E1. eapply NoDup_zget; eassumption.
    - exists (-1). split; [apply F; assumption|]. split; [lia|]. intros k Hk Ek. exfalso. apply Hni. rewrite <- Ek. apply mds_get, Hk.
  Qed.
  Lemma sel_in d r x : ent_dim < d <= mesh_dim ms -> In x (sel_ r d) <-> In x ITEMS /\ fst x = d /\ rp x = r.
  Proof.
    intros Hd. unfold sel_. destruct (exists_ mp d) eqn:Hex.
    2:{ split; [intros []|]. intros (Hx & <- & _). apply item_facts in Hx as (Hx & _). congruence. }
    destruct Hc as (_ & _ & HA). destruct (HA ent_dim d) as (Hdeg & Ldn & Rdn & _); [lia|lia|lia|]. destruct (inv_facts d Hex) as (_ & _ & HI). rewrite in_map_iff. split.
    - intros (hl & <- & Hhl). apply filter_In in Hhl as [Hu Hf]. apply andb_true_iff in Hf as [Hf1 Hf2]. apply Z.leb_le in Hf1. apply Z.eqb_eq in Hf2. unfold uses_of in Hu. apply filter_In in Hu as [Hr Hu]. apply in_zrange in Hr. rewrite Ldn in Hr.
      assert (0 <= hl / degree ms d ent_dim < nents ms d) as Hmd by (split; [apply Z.div_pos; lia|apply Z.div_lt_upper_bound; nia]). destruct (HI _ Hmd) as (m & Em & H1 & _). unfold index_ in *. rewrite Em in *. cbn [val] in *. destruct (H1 Hf1) as [Hm Hmd'].
      assert (In (d, m) ITEMS) as Hin by (apply in_items; [apply mp4|cbn [fst snd]; tauto]). split; [exact Hin|]. split; [reflexivity|]. destruct (item_facts _ Hin) as (_ & _ & _ & _ & Hre & _).
      apply (represents_fun d (md_ (d, m)) _ _ Hre). right. right. split; [lia|]. rewrite Hmd'. replace (hl / degree ms d ent_dim * degree ms d ent_dim) with hl by (rewrite (Z.div_mod hl (degree ms d ent_dim)) at 1 by lia; lia).
      destruct (zget (ask_down ms d ent_dim) hl) as [y| |] eqn:Ey; try discriminate. f_equal. lia.
    - intros (Hin & <- & <-). destruct x as [d m]. cbn [fst] in *. destruct (item_facts _ Hin) as (_ & Hm & _ & _ & Hre & Em & Hmd & _). cbn [fst snd] in *.
      destruct Hre as [(? & _)|[(? & _)|(_ & Et)]]; [lia|lia|]. exists (md_ (d, m) * degree ms d ent_dim). unfold index_. rewrite Z.div_mul by lia. destruct (HI _ Hmd) as (k & Ek & _ & H2). rewrite Ek. cbn [val]. rewrite (H2 m Hm eq_refl). split; [reflexivity|].
      apply filter_In. split.
      + unfold uses_of. apply filter_In. split; [apply in_zrange; eapply zget_bounds, Et|]. rewrite Et. apply Z.eqb_refl.
      + unfold index_. rewrite Z.div_mul by lia. rewrite Ek. cbn [val]. rewrite (H2 m Hm eq_refl), Z.mod_mul by lia. rewrite Z.eqb_refl. lia.
  Qed.
  Lemma map_inj_in {A B} (f : A -> B) l : (forall x y, In x l -> In y l -> f x = f y -> x = y) -> NoDup l -> NoDup (map f l).
  Proof.
    induction l as [|a l IH]; intros Hi Hn; cbn [map]; [constructor|]. inversion Hn; subst. constructor.
    - intros Hin. apply in_map_iff in Hin as (b & E & Hb). apply Hi in E; [subst; contradiction|right; exact Hb|left; reflexivity].
    - apply IH; [|assumption]. intros; apply Hi; auto; right; assumption.
  Qed.
  Lemma sel_NoDup r d : ent_dim < d <= mesh_dim ms -> NoDup (sel_ r d).
  Proof.
    intros Hd. unfold sel_. destruct (exists_ mp d) eqn:Hex; [|constructor]. destruct Hc as (_ & _ & HA). destruct (HA ent_dim d) as (Hdeg & Ldn & Rdn & _); [lia|lia|lia|]. destruct (inv_facts d Hex) as (_ & _ & HI).
    assert (forall hl, In hl (uses_of (ask_down ms d ent_dim) r) -> 0 <= hl / degree ms d ent_dim < nents ms d) as HR.
    { intros hl Hhl. unfold uses_of in Hhl. apply filter_In in Hhl as [Hr _]. apply in_zrange in Hr. rewrite Ldn in Hr. split; [apply Z.div_pos; lia|apply Z.div_lt_upper_bound; nia]. }
    apply map_inj_in; [|apply NoDup_filter; unfold uses_of; apply NoDup_filter, zrange_NoDup]. intros a b Ha Hb E. injection E as E.
    apply filter_In in Ha as [Ua Fa]. apply filter_In in Hb as [Ub Fb]. apply andb_true_iff in Fa as [Fa1 Fa2]. apply andb_true_iff in Fb as [Fb1 Fb2]. apply Z.leb_le in Fa1, Fb1. apply Z.eqb_eq in Fa2, Fb2.
    destruct (HI _ (HR a Ua)) as (ma & Ea & Ha1 & _). destruct (HI _ (HR b Ub)) as (mb & Eb & Hb1 & _). unfold index_ in *. rewrite Ea in *. rewrite Eb in *. cbn [val] in *. subst mb. destruct (Ha1 Fa1) as [_ Va]. destruct (Hb1 Fb1) as [_ Vb].
    rewrite (Z.div_mod a (degree ms d ent_dim)), (Z.div_mod b (degree ms d ent_dim)) by lia. rewrite Fa2, Fb2, <- Va, <- Vb. reflexivity.
  Qed.
  Lemma highs_in r x : In x (highs r) <-> In x ITEMS /\ ent_dim < fst x /\ rp x = r.
  Proof.
    unfold highs. rewrite in_flat_map. split.
    - intros (d & Hd & Hx). apply in_zfromto in Hd. apply sel_in in Hx; [|lia]. destruct Hx as (H1 & H2 & H3). split; [exact H1|]. split; [lia|exact H3].
    - intros (H1 & H2 & H3). pose proof (item_facts x H1) as (Hex & _). apply have_facts in Hex as (Hd & _). exists (fst x). split; [apply in_zfromto; lia|]. apply sel_in; [lia|tauto].
  Qed.
  Lemma highs_NoDup r : NoDup (highs r).
  Proof.
    unfold highs. apply NoDup_flat_map.
    - assert (forall k a, NoDup (zfromto a (a + Z.of_nat k))) as HN.
      { induction k as [|k IH]; intros a; [rewrite zfromto_nil by lia; constructor|]. rewrite zfromto_cons by lia. constructor; [intros Hin; apply in_zfromto in Hin; lia|]. replace (a + Z.of_nat (S k)) with (a + 1 + Z.of_nat k) by lia. apply IH. }
      replace (mesh_dim ms + 1) with (ent_dim + 1 + Z.of_nat (Z.to_nat (mesh_dim ms - ent_dim))) by lia. apply HN.
    - intros d Hd. apply in_zfromto in Hd. apply sel_NoDup. lia.
    - intros a b x Ha Hb H1 H2. apply in_zfromto in Ha. apply in_zfromto in Hb. apply sel_in in H1; [|lia]. apply sel_in in H2; [|lia]. destruct H1 as (_ & <- & _). destruct H2 as (_ & <- & _). reflexivity.
  Qed.
  Lemma low_in r x : In x (low r) <-> In x ITEMS /\ fst x < ent_dim /\ rp x = r.
  Proof. unfold low. rewrite filter_In, andb_true_iff, Z.ltb_lt, Z.eqb_eq. tauto. Qed.
  Lemma own_in r x : In x (own r) <-> In x ITEMS /\ fst x = ent_dim /\ rp x = r.
  Proof. unfold own. rewrite filter_In, andb_true_iff, !Z.eqb_eq. tauto. Qed.
  Lemma IT_in r x : In x (IT_ r) <-> In x ITEMS /\ rp x = r.
  Proof.
    unfold IT_. rewrite !in_app_iff, low_in, own_in, highs_in. split; [tauto|]. intros [H1 H2]. destruct (Z.lt_total (fst x) ent_dim) as [H|[H|H]]; tauto.
  Qed.
  Lemma IT_NoDup r : NoDup (IT_ r).
  Proof.
    unfold IT_. apply NoDup_app_intro; [apply NoDup_filter, items_NoDup|apply NoDup_app_intro; [apply NoDup_filter, items_NoDup|apply highs_NoDup|]|].
    - intros x H1 H2. apply own_in in H1. apply highs_in in H2. lia.
    - intros x H1 H2. apply low_in in H1. apply in_app_iff in H2 as [H2|H2]; [apply own_in in H2|apply highs_in in H2]; lia.
  Qed.
  Lemma low_nil r x : In x ITEMS -> rp x = r -> ent_dim <= fst x -> low r = [].
  Proof.
    intros Hx Hr Hd. destruct (low r) as [|y l] eqn:E; [reflexivity|]. exfalso. assert (In y (low r)) as Hy by (rewrite E; left; reflexivity). apply low_in in Hy as (Hy & Hy2 & Hy3).
    assert (y = x) by (apply Halone; [assumption|assumption|congruence|assumption]). subst. lia.
  Qed.
  Lemma own_of x : In x ITEMS -> fst x = ent_dim -> own (rp x) = [x].
  Proof.
    intros Hx Hd. assert (forall y, In y (own (rp x)) -> y = x) as HU.
    { intros y Hy. apply own_in in Hy as (Hy & Hy2 & Hy3). apply md_inj; [assumption|assumption|congruence|]. destruct (item_facts x Hx) as (_ & _ & _ & _ & Hre & _). destruct (item_facts y Hy) as (_ & _ & _ & _ & Hre' & _).
      destruct Hre as [(_ & E)|[(? & _)|(? & _)]]; [|lia|lia]. destruct Hre' as [(_ & E')|[(? & _)|(? & _)]]; [|lia|lia]. congruence. }
    assert (In x (own (rp x))) as Hin by (apply own_in; tauto). assert (NoDup (own (rp x))) as HN by (apply NoDup_filter, items_NoDup). destruct (own (rp x)) as [|a [|b l]]; [destruct Hin| |].
    - f_equal. apply HU. left; reflexivity.
    - exfalso. inversion HN as [|? ? Hni]; subst. apply Hni. left. rewrite (HU a), (HU b) by (cbn; tauto). reflexivity.
  Qed.
  Lemma ord_low x : In x ITEMS -> fst x <= ent_dim -> ord nn rp IT_ x = 0.
  Proof.
    intros Hx Hd. unfold ord. assert (exists l, IT_ (rp x) = x :: l) as (l & ->).
    { unfold IT_. destruct (Z_lt_le_dec (fst x) ent_dim) as [Hlt|Hge].
      - assert (In x (low (rp x))) as Hin by (apply low_in; tauto). destruct (low (rp x)) as [|y l] eqn:E; [destruct Hin|]. assert (In y (low (rp x))) as Hy by (rewrite E; left; reflexivity). apply low_in in Hy as (Hy & Hy2 & Hy3).
        assert (y = x) by (apply Halone; auto). subst. eexists. reflexivity.
      - rewrite (low_nil (rp x) x Hx eq_refl Hge), (own_of x Hx) by lia. eexists. reflexivity. }
    cbn [ahead]. destruct (item_dec x x); congruence.
  Qed.

  Fixpoint stamp (o : Z) (l : list item) : list (Z * Z * Z) := match l with [] => [] | x :: l => (fst x, mdof mm x, o) :: stamp (o + nn_ mp x) l end.
  Lemma stamp_app l : forall o m, stamp o (l ++ m) = stamp o l ++ stamp (o + sumn nn l) m.
  Proof.
    induction l as [|x l IH]; intros o m; cbn [app stamp]; [change (sumn nn []) with 0; rewrite Z.add_0_r; reflexivity|]. rewrite IH, sumn_cons. rewrite Z.add_assoc. reflexivity.
  Qed.
  Lemma stamp_keys l : forall o, map key (stamp o l) = map (fun x => (fst x, md_ x)) l.
  Proof. induction l as [|x l IH]; intros o; cbn [stamp map]; [reflexivity|]. rewrite IH. reflexivity. Qed.
  Lemma stamp_in l : forall o d md v, In (d, md, v) (stamp o l) <-> exists l1 x l2, l = l1 ++ x :: l2 /\ d = fst x /\ md = md_ x /\ v = o + sumn nn l1.
  Proof.
    induction l as [|x l IH]; intros o d md v; cbn [stamp].
    - split; [intros []|]. intros (l1 & x & l2 & E & _). destruct l1; discriminate.
    - cbn [In]. rewrite IH. split.
      + intros [E|(l1 & y & l2 & -> & H1 & H2 & H3)].
        * injection E as <- <- <-. exists [], x, l. split; [reflexivity|]. split; [reflexivity|]. split; [reflexivity|]. change (sumn nn []) with 0. lia.
        * exists (x :: l1), y, l2. split; [reflexivity|]. split; [exact H1|]. split; [exact H2|]. rewrite sumn_cons. unfold nn in *. lia.
      + intros (l1 & y & l2 & E & H1 & H2 & H3). destruct l1 as [|z l1]; cbn [app] in E; injection E as E1 E2.
        * left. subst. change (sumn nn []) with 0. rewrite Z.add_0_r. reflexivity.
        * right. subst z. exists l1, y, l2. split; [exact E2|]. split; [exact H1|]. split; [exact H2|]. rewrite sumn_cons in H3. unfold nn in *. lia.
  Qed.

  Let used d := (ent_dim <? d) && (d <=? mesh_dim ms) && exists_ mp d.
  Let invs := map (fun d => if used d || ((d =? ent_dim) && exists_ mp d) then Some (inv_ ms mm d) else None) (zrange 4).
  Lemma at_invs d : ent_dim <= d -> exists_ mp d = true -> at_ invs d = Some (inv_ ms mm d).
  Proof.
    intros Hd H. destruct (have_facts d H) as (Hdd & _). destruct Hc as ((_ & H3) & _). unfold invs. rewrite at_map4. destruct (Z.leb_spec 0 d), (Z.ltb_spec d 4); try lia. cbn [andb].
    unfold used. rewrite H. destruct (Z.ltb_spec ent_dim d), (Z.leb_spec d (mesh_dim ms)), (Z.eqb_spec d ent_dim); cbn [andb orb]; try reflexivity; lia.
  Qed.
  Definition inner d (ab codes : list Z) (s : list (Z * Z * Z) * Z) (rep_md : Z) : res (list (Z * Z * Z) * Z) :=
    md <- zget ab rep_md ;;
    inv <- the invs d ;; m <- zget inv md ;;
    if m >=? 0 then
      code <- zget codes rep_md ;;
      if code_which_down code =? 0 then np <- the mn d ;; n <- zget np m ;; Ok (fst s ++ [(d, md, snd s)], snd s + n) else Ok s
    else Ok s.
  Definition picks d U : list item := map (fun hl => (d, index_ d hl)) (filter (fun hl => (0 <=? index_ d hl) && (hl mod degree ms d ent_dim =? 0)) U).
  Lemma inner_loop d ab codes : ent_dim < d -> exists_ mp d = true -> forall U js cs s, mapM (zget ab) js = Ok (map (fun hl => hl / degree ms d ent_dim) U) -> mapM (zget codes) js = Ok cs ->
    map code_which_down cs = map (fun hl => hl mod degree ms d ent_dim) U -> (forall hl, In hl U -> 0 <= hl / degree ms d ent_dim < nents ms d) ->
    foldM (inner d ab codes) js s = Ok (fst s ++ stamp (snd s) (picks d U), snd s + sumn nn (picks d U)).
  Proof.
    intros Hd Hex. induction U as [|hl U IH]; intros js cs s E1 E2 E3 HR.
    - destruct js as [|j js]; [|cbn [mapM map] in E1; apply bind_ok in E1 as (? & _ & E1); apply bind_ok in E1 as (? & _ & E1); discriminate]. cbn. rewrite app_nil_r. destruct s as [a b]. cbn [fst snd]. f_equal. f_equal. change (sumn nn []) with 0. lia.
    - destruct js as [|j js]; [discriminate|]. cbn [mapM map] in E1, E2. apply bind_ok in E1 as (md & Emd & E1). apply bind_ok in E1 as (mds & Emds & E1). injection E1 as -> ->.
      apply bind_ok in E2 as (c & Ecd & E2). apply bind_ok in E2 as (cs' & Ecs & E2). injection E2 as <-. cbn [map] in E3. injection E3 as Ew E3. cbn [foldM].
      destruct (inv_facts d Hex) as (_ & _ & HI). destruct (HI (hl / degree ms d ent_dim)) as (m & Em & H1 & _); [apply HR; left; reflexivity|].
      assert (inner d ab codes s j = Ok (fst s ++ stamp (snd s) (picks d [hl]), snd s + sumn nn (picks d [hl]))) as HS.
      { unfold inner. rewrite Emd. cbn [bind]. unfold the. rewrite at_invs by (try exact Hex; lia). cbn [bind]. rewrite Em. cbn [bind]. rewrite Ecd. cbn [bind]. rewrite at_mn by exact Hex. cbn [bind]. rewrite Ew.
        unfold picks. cbn [filter]. unfold index_. rewrite Em. cbn [val]. rewrite Z.geb_leb. destruct (Z.leb_spec 0 m) as [Hm|Hm]; cbn [andb].
        - destruct (H1 Hm) as [Hmr Hmd]. destruct (hl mod degree ms d ent_dim =? 0); cbn [map stamp].
          + destruct (degs_facts d Hex) as (_ & _ & D). destruct (D m Hmr) as [D1 _]. rewrite D1. cbn [bind]. rewrite Em. cbn [val fst]. change (mdof mm (d, m)) with (md_ (d, m)). rewrite Hmd. f_equal. f_equal. unfold sumn. cbn. lia.
          + rewrite app_nil_r. destruct s. cbn [fst snd]. change (sumn nn []) with 0. rewrite Z.add_0_r. reflexivity.
        - cbn [map stamp]. rewrite app_nil_r. destruct s. cbn [fst snd]. change (sumn nn []) with 0. rewrite Z.add_0_r. reflexivity. }
      rewrite HS. cbn [bind]. rewrite (IH js cs' _ Emds Ecs E3) by (intros; apply HR; right; assumption). cbn [fst snd].
      assert (picks d (hl :: U) = picks d [hl] ++ picks d U) as -> by (unfold picks; rewrite <- map_app, <- filter_app; reflexivity). rewrite stamp_app, sumn_app, <- app_assoc, Z.add_assoc. reflexivity.
  Qed.

  Lemma dims_loop r (f : list (Z * Z * Z) * Z -> Z -> res (list (Z * Z * Z) * Z)) : forall ds s,
    (forall d s, In d ds -> f s d = Ok (fst s ++ stamp (snd s) (sel_ r d), snd s + sumn nn (sel_ r d))) ->
    foldM f ds s = Ok (fst s ++ stamp (snd s) (flat_map (sel_ r) ds), snd s + sumn nn (flat_map (sel_ r) ds)).
  Proof.
    induction ds as [|d ds IH]; intros s H; cbn [foldM flat_map].
    - destruct s as [a b]. cbn [fst snd stamp]. rewrite app_nil_r. change (sumn nn []) with 0. rewrite Z.add_0_r. reflexivity.
    - rewrite H by (left; reflexivity). cbn [bind]. rewrite IH by (intros; apply H; right; assumption). cbn [fst snd]. rewrite stamp_app, sumn_app, <- app_assoc, Z.add_assoc. reflexivity.
  Qed.

  Lemma own_start r : 0 <= r < nold ->
    (if exists_ mp ent_dim then inv <- the invs ent_dim ;; m <- zget inv r ;; if m >=? 0 then np <- the mn ent_dim ;; zget np m else Ok 0 else Ok 0) = Ok (sumn nn (own r)).
  Proof.
    intros Hr. destruct (exists_ mp ent_dim) eqn:Hex.
    - unfold the. rewrite at_invs by (try exact Hex; lia). cbn [bind]. destruct (inv_facts ent_dim Hex) as (_ & _ & HI). destruct (HI r Hr) as (m & Em & H1 & H2). rewrite Em. cbn [bind]. rewrite Z.geb_leb. destruct (Z.leb_spec 0 m) as [Hm|Hm].
      + destruct (H1 Hm) as [Hmr Hmd]. rewrite at_mn by exact Hex. cbn [bind]. destruct (degs_facts ent_dim Hex) as (_ & _ & D). destruct (D m Hmr) as [D1 _]. rewrite D1.
        assert (In (ent_dim, m) ITEMS) as Hin by (apply in_items; [apply mp4|cbn [fst snd]; tauto]). destruct (item_facts _ Hin) as (_ & _ & _ & _ & Hre & _).
        assert (rp (ent_dim, m) = r) as Hrp by (cbn [fst] in Hre; destruct Hre as [(_ & E)|[(? & _)|(? & _)]]; [congruence|lia|lia]). rewrite <- Hrp. rewrite (own_of _ Hin eq_refl). unfold sumn. cbn. f_equal. lia.
      + assert (own r = []) as ->; [|reflexivity]. destruct (own r) as [|[d k] l] eqn:E; [reflexivity|]. exfalso. assert (In (d, k) (own r)) as Hk by (rewrite E; left; reflexivity). apply own_in in Hk as (Hk & Hk2 & Hk3). cbn [fst] in Hk2. subst d.
        destruct (item_facts _ Hk) as (_ & Bk & _ & _ & Hre & _). cbn [fst snd] in *. destruct Hre as [(_ & E')|[(? & _)|(? & _)]]; [|lia|lia]. assert (m = k) by (apply H2; [exact Bk|congruence]). lia.
    - assert (own r = []) as ->; [|reflexivity]. destruct (own r) as [|x l] eqn:E; [reflexivity|]. exfalso. assert (In x (own r)) as Hk by (rewrite E; left; reflexivity). apply own_in in Hk as (Hk & Hk2 & Hk3). apply item_facts in Hk as (Hk & _). congruence.
  Qed.
  Lemma rep_orders_spec r : 0 <= r < nold -> rep_orders ms ent_dim (exists_ mp) invs mn r = Ok (stamp (sumn nn (own r)) (highs r)).
  Proof.
    intros Hr. unfold rep_orders. rewrite own_start by exact Hr. cbn [bind]. rewrite (dims_loop r _ (zfromto (ent_dim + 1) (mesh_dim ms + 1)) ([], sumn nn (own r))); [reflexivity|].
    intros d s Hd. apply in_zfromto in Hd. destruct (exists_ mp d) eqn:Hex; cbn [negb].
    2:{ unfold sel_. rewrite Hex. cbn [stamp]. rewrite app_nil_r. destruct s. cbn [fst snd]. change (sumn nn []) with 0. rewrite Z.add_0_r. reflexivity. }
    pose proof Hc as (_ & _ & HA). destruct (HA ent_dim d) as (Hdeg & Ldn & Rdn & (WF & LA & U)); [lia|lia|lia|]. destruct (U r Hr) as (T & cs & TC & EC). unfold adj_targets, targets in T. cbn [M_Graph.a2ab M_Graph.ab2b] in T. apply bind_ok in T as (lo & Elo & T). apply bind_ok in T as (hi & Ehi & T).
    unfold adj_target_codes in TC. destruct (adj_codes (ask_up ms ent_dim d)) as [codes|] eqn:Eco; [|discriminate]. unfold targets in TC. cbn [M_Graph.a2ab M_Graph.ab2b] in TC. rewrite Elo, Ehi in TC. cbn [bind] in TC. rewrite Elo, Ehi. cbn [bind].
    pose proof (inner_loop d (adj_ab2b (ask_up ms ent_dim d)) codes ltac:(lia) Hex _ _ _ s T TC EC) as IL. unfold sel_. rewrite Hex. apply IL.
    intros hl Hhl. unfold uses_of in Hhl. apply filter_In in Hhl as [Hrr _]. apply in_zrange in Hrr. rewrite Ldn in Hrr. split; [apply Z.div_pos; lia|apply Z.div_lt_upper_bound; nia].
  Qed.

  Lemma mapM_pure {A B} (f : A -> res B) (g : A -> B) l : (forall a, In a l -> f a = Ok (g a)) -> mapM f l = Ok (map g l).
  Proof. induction l as [|a l IH]; intros H; cbn [mapM map]; [reflexivity|]. rewrite H by (left; reflexivity). cbn [bind]. rewrite IH by (intros; apply H; right; assumption). reflexivity. Qed.

  Lemma order_spec : exists order, get_rep2md_order ms ent_dim mm mn (exists_ mp) = Ok order /\ (forall d, exists_ order d = used d) /\
    forall x, In x ITEMS -> ent_dim < fst x -> exists l, at_ order (fst x) = Some l /\ zget l (md_ x) = Ok (ord nn rp IT_ x).
  Proof.
    unfold get_rep2md_order. fold used. destruct (existsb used (zrange 4)) eqn:Hany; cbn [negb].
    2:{ assert (forall d, used d = false) as HU.
        { intros d. destruct (used d) eqn:E; [|reflexivity]. assert (In d (zrange 4)) as Hin.
          { apply in_zrange. unfold used in E. apply andb_true_iff in E as [_ E]. apply have_facts in E. destruct Hc as ((? & ?) & _). lia. }
          assert (existsb used (zrange 4) = true) by (apply existsb_exists; eauto). congruence. }
        exists [None; None; None; None]. split; [reflexivity|]. split.
        - intros d. rewrite HU. unfold exists_. change [None; None; None; None] with (map (fun _ : Z => @None (list Z)) (zrange 4)). rewrite at_map4. destruct (_ && _); reflexivity.
        - intros x Hx Hd. exfalso. specialize (HU (fst x)). unfold used in HU. destruct (item_facts x Hx) as (Hex & _). rewrite Hex in HU. apply have_facts in Hex as (Hdd & _).
          destruct (Z.ltb_spec ent_dim (fst x)), (Z.leb_spec (fst x) (mesh_dim ms)); cbn in HU; [discriminate| lia..]. }
    rewrite (mapM_pure _ (fun d => if used d then Some (repeat (-1) (Z.to_nat (nents ms d))) else None)).
    2:{ intros d Hd. change ((ent_dim <? d) && (d <=? mesh_dim ms) && exists_ mp d) with (used d). destruct (used d) eqn:E; [|reflexivity]. unfold used in E. apply andb_true_iff in E as [_ E]. apply have_facts in E as (E & _). rewrite filled_ok by (apply nents_nonneg, E). reflexivity. }
    cbn [bind]. rewrite (mapM_pure _ (fun d => if used d || ((d =? ent_dim) && exists_ mp d) then Some (inv_ ms mm d) else None)).
    2:{ intros d Hd. change ((ent_dim <? d) && (d <=? mesh_dim ms) && exists_ mp d) with (used d). destruct (used d || ((d =? ent_dim) && exists_ mp d)) eqn:E; [|reflexivity]. assert (exists_ mp d = true) as Hex.
        { unfold used in E. destruct (exists_ mp d); [reflexivity|]. rewrite !andb_false_r in E. discriminate. }
        destruct (have_facts d Hex) as (_ & Em & _). unfold the. rewrite Em. cbn [bind]. destruct (inv_facts d Hex) as (E1 & _). rewrite E1. reflexivity. }
    cbn [bind]. fold invs.
    set (w0 := map (fun d => if used d then Some (repeat (-1) (Z.to_nat (nents ms d))) else None) (zrange 4)).
    destruct (forM_invariant (fun R (w : few) => zlen w = 4 /\ (forall d, option_map zlen (at_ w d) = if used d then Some (nents ms d) else None) /\
       forall x, In x ITEMS -> ent_dim < fst x -> rp x < R -> look w (fst x) (md_ x) = Ok (ord nn rp IT_ x)) (nents ms ent_dim) w0
       (fun w rep => es <- rep_orders ms ent_dim (exists_ mp) invs mn rep ;; foldM store_order es w)) as (w & Ew & Lw & Sw & Gw).
    - apply nents_nonneg, Hed.
    - split; [reflexivity|]. split.
      + intros d. unfold w0. rewrite at_map4. destruct (used d) eqn:E.
        * assert (0 <= d <= mesh_dim ms) as Hd by (unfold used in E; apply andb_true_iff in E as [_ E]; apply have_facts in E; tauto). destruct Hc as ((_ & H3) & _). destruct (Z.leb_spec 0 d), (Z.ltb_spec d 4); try lia. cbn [andb option_map]. rewrite zlen_repeat. pose proof (nents_nonneg d Hd). f_equal. lia.
        * destruct (_ && _); reflexivity.
      + intros x Hx _ Hlt. apply item_facts in Hx as (_ & _ & _ & Hr & _). lia.
    - intros r w Hr (Lw & Sw & Gw). rewrite rep_orders_spec by exact Hr. cbn [bind].
      assert (NoDup (map key (stamp (sumn nn (own r)) (highs r)))) as HN.
      { rewrite stamp_keys. apply map_inj_in; [|apply highs_NoDup]. intros x y Hx Hy E. injection E as E1 E2. apply highs_in in Hx. apply highs_in in Hy. apply md_inj; tauto. }
      destruct (store_orders (stamp (sumn nn (own r)) (highs r)) w HN) as (w' & E' & L' & S' & G' & F').
      { intros d md v Hin. apply stamp_in in Hin as (l1 & x & l2 & El & -> & -> & _). assert (In x (highs r)) as Hx by (rewrite El; apply in_or_app; right; left; reflexivity). apply highs_in in Hx as (Hx & Hxd & _).
        destruct (item_facts x Hx) as (Hex & _ & _ & _ & _ & _ & Hmd & _). specialize (Sw (fst x)). assert (used (fst x) = true) as Hu. { unfold used. rewrite Hex. apply have_facts in Hex as (Hdd & _). destruct (Z.ltb_spec ent_dim (fst x)), (Z.leb_spec (fst x) (mesh_dim ms)); cbn; try reflexivity; lia. }
        rewrite Hu in Sw. destruct (at_ w (fst x)) as [l|]; [|discriminate]. cbn [option_map] in Sw. injection Sw as Sw. exists l. split; [reflexivity|]. lia. }
      exists w'. split; [exact E'|]. split; [lia|]. split; [intros d; rewrite S'; apply Sw|]. intros x Hx Hxd Hlt. destruct (Z_lt_le_dec (rp x) r) as [Hl|Hg].
      + rewrite F'; [apply Gw; assumption|]. rewrite stamp_keys. intros Hin. apply in_map_iff in Hin as (y & E & Hy). injection E as E1 E2. apply highs_in in Hy as (Hy & _ & Hy2). assert (y = x) by (apply md_inj; assumption). subst. lia.
      + assert (rp x = r) as Hxr by lia. assert (In x (highs r)) as Hin by (apply highs_in; tauto). apply in_split in Hin as (l1 & l2 & El). apply G'. apply stamp_in. exists l1, x, l2. split; [exact El|]. split; [reflexivity|]. split; [reflexivity|].
        unfold ord. rewrite Hxr. unfold IT_. rewrite (low_nil r x Hx Hxr) by lia. cbn [app]. rewrite El. rewrite app_assoc. rewrite ahead_split; [apply sumn_app|]. intros Hin. apply in_app_iff in Hin as [Hin|Hin]; [apply own_in in Hin; lia|].
        pose proof (highs_NoDup r) as HH. rewrite El in HH. apply NoDup_remove_2 in HH. apply HH, in_or_app. left; exact Hin.
    - exists w. split; [exact Ew|]. split.
      + intros d. specialize (Sw d). unfold exists_. destruct (at_ w d), (used d); cbn in Sw; try reflexivity; discriminate.
      + intros x Hx Hxd. destruct (item_facts x Hx) as (_ & _ & _ & Hr & _). specialize (Gw x Hx Hxd ltac:(apply Hr)). unfold look, the in Gw. destruct (at_ w (fst x)) as [l|]; [|discriminate]. exists l. split; [reflexivity|exact Gw].
  Qed.

  (** ** the numbers *)
  Variables (keep : bool) (counts : list Z).
  Hypothesis Hself_ : forall x, In x ITEMS -> self_ (rp x) = if keep then 1 else if ent_dim <? fst x then 1 else 0.
  Hypothesis Hcl : zlen counts = nold.
  Hypothesis Hcounts : forall r, 0 <= r < nold -> zget counts r = Ok (self_ r + sumn nn (filter (fun x => rp x =? r) ITEMS)).
  Let off_ := off counts.
  Let blk := block nn rp self_ counts IT_.
  Let before_d d := flat_map (items_d mm mp) (zrange d).

  Lemma zlen_zfromto' a b : a <= b -> zlen (zfromto a b) = b - a.
  Proof. intros H. rewrite zlen_zfromto by lia. lia. Qed.
  Lemma blk_len x : In x ITEMS -> zlen (blk x) = nn x.
  Proof. intros Hx. unfold blk, block. destruct (item_facts x Hx) as (_ & _ & H & _). rewrite zlen_zfromto' by lia. lia. Qed.
  Lemma skipn_at (l : few) d : 0 <= d < zlen l -> skipn (Z.to_nat d) l = at_ l d :: skipn (Z.to_nat (d + 1)) l.
  Proof.
    intros Hd. destruct (zget_in_range l d Hd) as (o & E). unfold at_. rewrite E. replace (Z.to_nat (d + 1)) with (S (Z.to_nat d)) by lia. apply zget_ok in E as [_ E]. revert E. clear. generalize (Z.to_nat d) as k. intros k. revert l. induction k as [|k IH]; intros [|a l] E; try discriminate.
    - cbn in E. injection E as ->. reflexivity.
    - cbn [nth_error] in E. cbn [skipn]. apply IH, E.
  Qed.
  Lemma d_items_in d m : exists_ mp d = true -> 0 <= m < zlen (list_at mm d) -> In (d, m) ITEMS.
  Proof. intros. apply in_items; [apply mp4|]. cbn [fst snd]. tauto. Qed.
  Lemma layout_in d : exists_ mp d = true -> zget (list_at mp d) 0 = Ok (zlen (flat_map blk (before_d d))) ->
    forall m, 0 <= m <= zlen (list_at mm d) -> zget (list_at mp d) m = Ok (zlen (flat_map blk (before_d d ++ map (pair d) (zrange m)))).
  Proof.
    intros Hex E0 m Hm. replace m with (Z.of_nat (Z.to_nat m)) in * by lia. revert Hm. generalize (Z.to_nat m) as k. induction k as [|k IH]; intros Hk.
    - change (map (pair d) (zrange (Z.of_nat 0))) with (@nil item). rewrite app_nil_r. exact E0.
    - replace (Z.of_nat (S k)) with (Z.of_nat k + 1) in * by lia. specialize (IH ltac:(lia)). rewrite zrange_succ by lia. rewrite map_app, app_assoc, flat_map_app, zlen_app. cbn [map flat_map]. rewrite app_nil_r.
      rewrite blk_len by (apply d_items_in; [exact Hex|lia]). destruct (have_facts d Hex) as (_ & _ & _ & L & _). destruct (zget_in_range (list_at mp d) (Z.of_nat k + 1)) as (hi & Ehi); [lia|].
      unfold nn, nn_. cbn [fst snd]. rewrite IH, Ehi. cbn [val]. f_equal. symmetry. apply Zplus_minus.
  Qed.
  Lemma layout d : 0 <= d <= 4 -> numbered_from (zlen (flat_map blk (before_d d))) (skipn (Z.to_nat d) mp) nprods.
  Proof.
    intros Hd. replace d with (Z.of_nat (Z.to_nat d)) in * by lia. revert Hd. generalize (Z.to_nat d) as k. induction k as [|k IH]; intros Hk.
    - change (before_d (Z.of_nat 0)) with (@nil item). cbn [flat_map]. apply Hml.
    - replace (Z.of_nat (S k)) with (Z.of_nat k + 1) in * by lia. specialize (IH ltac:(lia)). rewrite skipn_at in IH by (rewrite mp4; lia). unfold before_d in *. rewrite zrange_succ by lia. rewrite (flat_map_app (items_d mm mp)). cbn [flat_map]. rewrite app_nil_r.
      destruct (at_ mp (Z.of_nat k)) as [p|] eqn:E.
      + assert (exists_ mp (Z.of_nat k) = true) as Hex by (unfold exists_; rewrite E; reflexivity). cbn [numbered_from] in IH. destruct IH as (H1 & H2 & mid & H3 & H4). destruct (have_facts _ Hex) as (_ & _ & Ep & L & _). pose proof (zlen_nonneg (list_at mm (Z.of_nat k))).
        assert (list_at mp (Z.of_nat k) = p) as Hp by (unfold list_at; rewrite E; reflexivity).
        pose proof (layout_in (Z.of_nat k) Hex ltac:(rewrite Hp; exact H1) (zlen (list_at mm (Z.of_nat k))) ltac:(lia)) as LI. unfold last_of in H3. rewrite Hp in *. rewrite L in H3. replace (zlen (list_at mm (Z.of_nat k)) + 1 - 1) with (zlen (list_at mm (Z.of_nat k))) in H3 by lia.
        rewrite LI in H3. injection H3 as H3. unfold items_d at 2. rewrite Hex. unfold before_d in H3. rewrite H3. exact H4.
      + cbn [numbered_from] in IH. unfold items_d at 2. unfold exists_. rewrite E. rewrite app_nil_r. exact IH.
  Qed.
  Lemma layout_get d m : exists_ mp d = true -> 0 <= m <= zlen (list_at mm d) -> zget (list_at mp d) m = Ok (zlen (flat_map blk (before_d d ++ map (pair d) (zrange m)))).
  Proof.
    intros Hex Hm. apply layout_in; [exact Hex| |exact Hm]. destruct (have_facts d Hex) as (Hd & _ & Ep & _). pose proof Hc as ((_ & H3) & _). pose proof (layout d ltac:(lia)) as LA. rewrite skipn_at in LA by (rewrite mp4; lia). rewrite Ep in LA. cbn [numbered_from] in LA. apply LA.
  Qed.
  Lemma layout_total : zlen (flat_map blk ITEMS) = nprods.
  Proof. pose proof (layout 4 ltac:(lia)) as L. replace (skipn (Z.to_nat 4) mp) with (@nil (option (list Z))) in L; [cbn [numbered_from] in L; symmetry; exact L|]. symmetry. apply skipn_all2. pose proof mp4 as M. unfold zlen in M. lia. Qed.
  Lemma layout_le d : 0 <= d <= 4 -> zlen (flat_map blk (before_d d)) <= nprods.
  Proof. intros Hd. eapply numbered_from_le, layout, Hd. Qed.
  Lemma zget_flat_map {A} (g : A -> list Z) a x b i : 0 <= i < zlen (g x) -> zget (flat_map g (a ++ x :: b)) (zlen (flat_map g a) + i) = zget (g x) i.
  Proof.
    intros Hi. rewrite flat_map_app. cbn [flat_map]. rewrite zget_app_r by lia. replace (zlen (flat_map g a) + i - zlen (flat_map g a)) with i by lia. apply zget_app_l. lia.
  Qed.
  Lemma items_split d m : exists_ mp d = true -> 0 <= m < zlen (list_at mm d) -> exists rest, ITEMS = (before_d d ++ map (pair d) (zrange m)) ++ (d, m) :: rest.
  Proof.
    intros Hex Hm. unfold ITEMS, items, before_d. destruct (have_facts d Hex) as (Hd & _). destruct Hc as ((_ & H3) & _). rewrite <- !zfromto_0. rewrite (zfromto_app 0 d 4) by lia. rewrite (zfromto_cons d 4) by lia. rewrite flat_map_app. cbn [flat_map]. unfold items_d at 2. rewrite Hex.
    rewrite <- (zfromto_0 (zlen (list_at mm d))). rewrite (zfromto_app 0 m (zlen (list_at mm d))) by lia. rewrite (zfromto_cons m (zlen (list_at mm d))) by lia. rewrite map_app. cbn [map]. exists (map (pair d) (zfromto (m + 1) (zlen (list_at mm d))) ++ flat_map (items_d mm mp) (zfromto (d + 1) 4)).
    rewrite <- !app_assoc. reflexivity.
  Qed.
  Lemma product_number d m lo i : exists_ mp d = true -> 0 <= m < zlen (list_at mm d) -> zget (list_at mp d) m = Ok lo -> 0 <= i < nn (d, m) -> zget (flat_map blk ITEMS) (lo + i) = Ok (start nn rp self_ counts IT_ (d, m) + i).
  Proof.
    intros Hex Hm Elo Hi. destruct (items_split d m Hex Hm) as (rest & E). rewrite (layout_get d m Hex) in Elo by lia. injection Elo as <-. rewrite E. pose proof (blk_len (d, m) (d_items_in d m Hex Hm)) as L.
    rewrite (zget_flat_map blk) by (rewrite L; exact Hi). unfold blk, block. unfold zfromto. rewrite zget_map. rewrite zget_zrange by lia. reflexivity.
  Qed.
  Lemma unmap1 (a2b data : list Z) : (forall b, In b a2b -> 0 <= b < zlen data) -> unmap a2b data 1 = Ok (map (fun b => val (zget data b)) a2b).
  Proof.
    intros H. destruct (unmap_spec a2b data 1) as (r & E & L & G); [lia|intros b Hb; specialize (H b Hb); lia|]. rewrite E. f_equal. apply list_eq_zget; [rewrite zlen_map; lia|]. intros i Hi. rewrite L, Z.mul_1_r in Hi. destruct (zget_in_range a2b i Hi) as (b & Eb). rewrite zget_map, Eb. cbn [bind].
    specialize (G i b 0 Eb ltac:(lia)). rewrite !Z.mul_1_r, !Z.add_0_r in G. rewrite G. destruct (zget_in_range data b) as (v & Ev); [apply H; eapply zget_In, Eb|]. rewrite Ev. reflexivity.
  Qed.
  Lemma assign_spec order : (forall d, exists_ order d = used d) -> (forall x, In x ITEMS -> ent_dim < fst x -> exists l, at_ order (fst x) = Some l /\ zget l (md_ x) = Ok (ord nn rp IT_ x)) ->
    assign_new_numbering (offset_scan counts) same mm mr mp order keep = Ok (map off_ same, flat_map blk ITEMS).
  Proof.
    intros HO1 HO2. unfold assign_new_numbering. rewrite unmap1 by (intros b Hb; rewrite offset_scan_length; specialize (Hsame b Hb); lia). cbn [bind].
    destruct (forM_invariant (fun d n => numbered_from n (skipn (Z.to_nat d) mp) nprods) 4 0 (fun n d => match at_ mp d with Some p => last_of p | None => Ok n end)) as (n & En & Hn).
    - lia.
    - apply Hml.
    - intros d n Hd H. rewrite skipn_at in H by (rewrite mp4; lia). destruct (at_ mp d) as [p|]; cbn [numbered_from] in H; [|eauto]. destruct H as (_ & _ & mid & H1 & H2). eauto.
    - rewrite En. cbn [bind]. replace (skipn (Z.to_nat 4) mp) with (@nil (option (list Z))) in Hn by (symmetry; apply skipn_all2; pose proof mp4 as M; unfold zlen in M; lia). cbn [numbered_from] in Hn. subst n.
      pose proof (layout_le 0 ltac:(lia)) as Hnp. change (zlen (flat_map blk (before_d 0))) with 0 in Hnp. rewrite blank_ok by exact Hnp. cbn [bind].
      match goal with |- context [forM 4 (repeat None (Z.to_nat nprods)) ?f] => destruct (forM_invariant (fun d w => w = map Some (flat_map blk (before_d d)) ++ repeat None (Z.to_nat (nprods - zlen (flat_map blk (before_d d))))) 4 (repeat None (Z.to_nat nprods)) f) as (w & Ew & Hw) end.
      + lia.
      + change (before_d 0) with (@nil item). cbn [flat_map map app]. change (zlen (@nil Z)) with 0. rewrite Z.sub_0_r. reflexivity.
      + intros d w Hd Hw. unfold before_d at 1 2. rewrite zrange_succ by lia. rewrite (flat_map_app (items_d mm mp)). cbn [flat_map]. rewrite app_nil_r. fold (before_d d). destruct (at_ mp d) as [p|] eqn:E.
        2:{ exists w. split; [reflexivity|]. unfold items_d, exists_. rewrite E. rewrite app_nil_r. exact Hw. }
        assert (exists_ mp d = true) as Hex by (unfold exists_; rewrite E; reflexivity). assert (list_at mp d = p) as Hp by (unfold list_at; rewrite E; reflexivity).
        destruct (have_facts d Hex) as (Hdd & Emm & _ & L & _). destruct (reps_facts d Hex) as (_ & Lr & Gr). unfold the. rewrite (at_mr d Hex). cbn [bind].
        rewrite unmap1. 2:{ intros b Hb. rewrite offset_scan_length, Hcl. apply In_zget in Hb as (m & Em). pose proof (zget_bounds _ _ _ Em) as B. rewrite Lr in B. destruct (item_facts (d, m) (d_items_in d m Hex B)) as (_ & _ & _ & R & _ & _ & _ & Er). cbn [fst snd] in Er. rewrite Em in Er. injection Er as ->. lia. }
        cbn [bind]. rewrite Lr. rewrite <- Hp, L. replace (zlen (list_at mm d) + 1 - 1) with (zlen (list_at mm d)) by lia. rewrite Z.eqb_refl. cbn [check bind].
        match goal with |- context [forM (zlen (list_at mm d)) w ?f] => destruct (forM_invariant (fun m w => w = map Some (flat_map blk (before_d d ++ map (pair d) (zrange m))) ++ repeat None (Z.to_nat (nprods - zlen (flat_map blk (before_d d ++ map (pair d) (zrange m)))))) (zlen (list_at mm d)) w f) as (w2 & Ew2 & Hw2) end.
        * apply zlen_nonneg.
        * change (map (pair d) (zrange 0)) with (@nil item). rewrite app_nil_r. exact Hw.
        * intros m w1 Hm Hw1. pose proof (d_items_in d m Hex Hm) as Hin. destruct (item_facts _ Hin) as (_ & _ & Hnn & Rr & Hre & Emd & _ & Er). cbn [fst snd] in Er, Emd. rewrite zget_map, Er. cbn [bind]. change (val (zget (offset_scan counts) (rp (d, m)))) with (off_ (rp (d, m))).
          assert ((match at_ order d with Some order0 => mds <- match at_ mm d with Some l => Ok l | None => UB end ;; md <- zget mds m ;; o <- zget order0 md ;; _ <- check (o >=? 0) ;; Ok o | None => Ok 0 end) = Ok (ord nn rp IT_ (d, m))) as Eo.
          { specialize (HO1 d). unfold exists_ in HO1. destruct (Z_lt_le_dec ent_dim d) as [Hlt|Hge].
            - destruct (HO2 (d, m) Hin Hlt) as (l & El & Gl). cbn [fst] in El. rewrite El, Emm. cbn [bind]. rewrite Emd. cbn [bind]. rewrite Gl. cbn [bind].
              assert (0 <= ord nn rp IT_ (d, m)) as Hpos.
              { pose proof (IT_in (rp (d, m)) (d, m)) as HI. assert (In (d, m) (IT_ (rp (d, m)))) as H2 by tauto. apply in_split in H2 as (l1 & l2 & E2). unfold ord. rewrite E2. rewrite ahead_split.
                - unfold sumn. apply zsum_nonneg. apply Forall_forall. intros z Hz. apply in_map_iff in Hz as (y & <- & Hy). apply item_facts. apply (IT_in (rp (d, m))). rewrite E2. apply in_or_app. left; exact Hy.
                - pose proof (IT_NoDup (rp (d, m))) as HN. rewrite E2 in HN. apply NoDup_remove_2 in HN. intros H. apply HN, in_or_app. left; exact H. }
              rewrite Z.geb_leb. destruct (Z.leb_spec 0 (ord nn rp IT_ (d, m))); [|lia]. reflexivity.
            - assert (used d = false) as Hu by (unfold used; destruct (Z.ltb_spec ent_dim d); [lia|reflexivity]). rewrite Hu in HO1. destruct (at_ order d); [discriminate|]. rewrite (ord_low (d, m) Hin) by (cbn [fst]; lia). reflexivity. }
          rewrite Eo. cbn [bind]. rewrite (layout_get d m Hex) by lia. cbn [bind]. rewrite (layout_get d (m + 1) Hex) by lia. cbn [bind].
          assert ((if keep then 1 else if exists_ order d then 1 else 0) = self_ (rp (d, m))) as Es.
          { rewrite (Hself_ _ Hin). cbn [fst]. destruct keep; [reflexivity|]. rewrite HO1. unfold used. rewrite Hex. destruct (Z.ltb_spec ent_dim d), (Z.leb_spec d (mesh_dim ms)); cbn; try reflexivity; lia. }
          rewrite Es. rewrite zrange_succ by lia. rewrite map_app, app_assoc. cbn [map]. set (D := before_d d ++ map (pair d) (zrange m)) in *. rewrite !(flat_map_app blk D [(d, m)]). cbn [flat_map]. rewrite !app_nil_r, !zlen_app. rewrite !(blk_len _ Hin).
          change (zfromto (off_ (rp (d, m)) + ord nn rp IT_ (d, m) + self_ (rp (d, m))) (off_ (rp (d, m)) + ord nn rp IT_ (d, m) + self_ (rp (d, m)) + (zlen (flat_map blk D) + nn (d, m) - zlen (flat_map blk D)))) with (zfromto (start nn rp self_ counts IT_ (d, m)) (start nn rp self_ counts IT_ (d, m) + (zlen (flat_map blk D) + nn (d, m) - zlen (flat_map blk D)))).
          replace (zlen (flat_map blk D) + nn (d, m) - zlen (flat_map blk D)) with (nn (d, m)) by lia. fold (block nn rp self_ counts IT_ (d, m)). fold (blk (d, m)).
          assert (zlen (flat_map blk D) + nn (d, m) <= nprods) as Hle.
          { rewrite <- layout_total. destruct (items_split d m Hex Hm) as (rest & EI). rewrite EI. fold D. rewrite flat_map_app, zlen_app. cbn [flat_map]. rewrite zlen_app, (blk_len _ Hin). pose proof (zlen_nonneg (flat_map blk rest)). lia. }
          assert (Z.of_nat (length (blk (d, m))) = nn (d, m)) as BL by exact (blk_len _ Hin).
          assert (Z.to_nat (nprods - zlen (flat_map blk D)) = (length (blk (d, m)) + Z.to_nat (nprods - (zlen (flat_map blk D) + nn (d, m))))%nat) as EL by lia.
          rewrite Hw1, EL.
          rewrite repeat_app. pose proof (write_block_ok (blk (d, m)) (map Some (flat_map blk D)) (repeat None (Z.to_nat (nprods - (zlen (flat_map blk D) + nn (d, m)))))) as WB. rewrite zlen_map in WB. rewrite WB. eexists. split; [reflexivity|]. rewrite map_app, <- app_assoc. reflexivity.
        * exists w2. split; [exact Ew2|]. rewrite Hw2. unfold items_d. rewrite Hex. reflexivity.
      + rewrite Ew. cbn [bind]. change (before_d 4) with ITEMS in Hw. rewrite layout_total in Hw. rewrite Z.sub_diag in Hw. cbn [Z.to_nat repeat] in Hw. rewrite app_nil_r in Hw. assert (freeze w = Ok (flat_map blk ITEMS)) as -> by (apply freeze_ok, Hw). reflexivity.
  Qed.
End Gen.

Lemma mapM_pure' {A B} (f : A -> res B) (g : A -> B) l : (forall a, In a l -> f a = Ok (g a)) -> mapM f l = Ok (map g l).
Proof. apply mapM_pure. Qed.

Lemma sorted_filter_eq l p n : StronglySorted Z.lt l -> (forall x, In x l <-> 0 <= x < n /\ p x = true) -> l = filter p (zrange n).
Proof.
  intros HS HI. assert (StronglySorted Z.lt (filter p (zrange n))) as HS2 by (apply filter_sorted, zrange_sorted).
  assert (forall x, In x l <-> In x (filter p (zrange n))) as HE by (intros x; rewrite HI, filter_In, in_zrange; reflexivity). clear HI. revert HS2 HE. generalize (filter p (zrange n)) as m. induction HS as [|a l HS IH Ha]; intros m HS2 HE.
  - destruct m as [|b m]; [reflexivity|]. exfalso. apply (HE b). left; reflexivity.
  - destruct HS2 as [|b m HS2 Hb]; [exfalso; apply (HE a); left; reflexivity|]. rewrite Forall_forall in Ha, Hb.
    assert (a = b) as ->. { destruct (proj1 (HE a) (or_introl eq_refl)) as [->|H1]; [reflexivity|]. destruct (proj2 (HE b) (or_introl eq_refl)) as [->|H2]; [reflexivity|]. specialize (Ha _ H2). specialize (Hb _ H1). lia. }
    f_equal. apply IH; [exact HS2|]. intros x. split; intros Hx.
    + destruct (proj1 (HE x) (or_intror Hx)) as [->|H1]; [specialize (Ha _ Hx); lia|exact H1].
    + destruct (proj2 (HE x) (or_intror Hx)) as [->|H1]; [specialize (Hb _ Hx); lia|exact H1].
Qed.

Lemma sorted_map_lt (f : Z -> Z) l : StronglySorted Z.lt l -> (forall x y, In x l -> In y l -> x < y -> f x < f y) -> StronglySorted Z.lt (map f l).
Proof.
  induction 1 as [|a l HS IH Ha]; intros Hf; cbn [map]; constructor.
  - apply IH. intros; apply Hf; try (right; assumption); assumption.
  - apply Forall_forall. intros z Hz. apply in_map_iff in Hz as (x & <- & Hx). rewrite Forall_forall in Ha. apply Hf; [left; reflexivity|right; exact Hx|apply Ha, Hx].
Qed.

Lemma modify_general ms ent_dim mm marks mp nprods keep same kept :
  consistent ms -> 0 <= ent_dim <= mesh_dim ms -> modified_lists ms mm mp nprods ->
  collect_same ms ent_dim marks keep = Ok same -> StronglySorted Z.lt same -> (forall x, In x same <-> 0 <= x < nents ms ent_dim /\ kept x) ->
  (forall d md, modified mm mp d md -> exists rep, represents ms ent_dim d md rep) ->
  (forall d md rep, modified mm mp d md -> represents ms ent_dim d md rep -> (kept rep <-> keep = true \/ ent_dim < d)) ->
  (forall d md d' md' rep, modified mm mp d md -> modified mm mp d' md' -> represents ms ent_dim d md rep -> represents ms ent_dim d' md' rep -> d < ent_dim -> d' = d /\ md' = md) ->
  exists r, modify_ents ms ent_dim mm marks mp keep = Ok r /\ good_numbering ms ent_dim mm mp nprods kept r.
Proof.
  intros Hc Hed Hml Hcs HS Hin Hrep HU1 HU2. set (ITEMS := items mm mp). set (nn := nn_ mp). set (rp := rp_ ms ent_dim mm). set (nold := nents ms ent_dim) in *.
  assert (forall r, In r same -> 0 <= r < nold) as Hsame by (intros r Hr; apply Hin in Hr; tauto).
  assert (0 <= nold) as Hnold by (apply Hc, Hed).
  pose proof (item_facts ms ent_dim mm mp nprods Hc Hed Hml Hrep) as IF. fold ITEMS nn rp nold in IF.
  assert (forall x, In x ITEMS -> modified mm mp (fst x) (mdof mm x)) as Hmod.
  { intros x Hx. destruct (IF x Hx) as (H1 & _ & _ & _ & _ & H2 & _). split; [exact H1|]. eapply zget_In, H2. }
  assert (forall x y, In x ITEMS -> In y ITEMS -> rp x = rp y -> fst x < ent_dim -> x = y) as Halone.
  { intros x y Hx Hy E Hd. destruct (IF x Hx) as (_ & _ & _ & _ & Rx & _). destruct (IF y Hy) as (_ & _ & _ & _ & Ry & _). rewrite <- E in Ry. destruct (HU2 _ _ _ _ _ (Hmod x Hx) (Hmod y Hy) Rx Ry Hd) as [E1 E2].
    symmetry. apply (md_inj ms ent_dim mm mp nprods Hc Hed Hml Hrep); assumption. }
  assert (forall x, In x ITEMS -> self_ same (rp x) = if keep then 1 else if ent_dim <? fst x then 1 else 0) as Hself.
  { intros x Hx. destruct (IF x Hx) as (_ & _ & _ & Rr & Rx & _). pose proof (HU1 _ _ _ (Hmod x Hx) Rx) as HK. unfold self_. destruct (in_dec Z.eq_dec (rp x) same) as [Hi|Hni].
    - apply Hin in Hi as [_ Hk]. apply HK in Hk. destruct keep; [reflexivity|]. destruct Hk as [Hk|Hk]; [discriminate|]. destruct (Z.ltb_spec ent_dim (fst x)); [reflexivity|lia].
    - destruct keep; [exfalso; apply Hni, Hin; tauto|]. destruct (Z.ltb_spec ent_dim (fst x)); [|reflexivity]. exfalso. apply Hni, Hin. tauto. }
  destruct (counts_spec ms ent_dim mm mp nprods Hc Hed Hml Hrep same Hsame) as (counts & Ecn & Lcn & Gcn). fold nold ITEMS nn rp in Gcn. fold nold in Lcn.
  destruct (order_spec ms ent_dim mm mp nprods Hc Hed Hml Hrep same Hsame Halone) as (order & Eor & Gor1 & Gor2).
  assert (assign_new_numbering (offset_scan counts) same mm (map (fun d => if exists_ mp d then Some (reps_ ms ent_dim mm d) else None) (zrange 4)) mp order keep = Ok (map (off counts) same, flat_map (block (nn_ mp) (rp_ ms ent_dim mm) (self_ same) counts (IT_ ms ent_dim mm mp)) (items mm mp))) as Eas by (eapply assign_spec; eassumption).
  set (offn := off counts) in *. set (IT := IT_ ms ent_dim mm mp) in *. set (blk := block (nn_ mp) (rp_ ms ent_dim mm) (self_ same) counts IT) in *.
  assert (forall r, In r same <-> 0 <= r < nold /\ (self_ same r =? 1) = true) as Hsf.
  { intros r. unfold self_. destruct (in_dec Z.eq_dec r same) as [Hi|Hni]; [split; [intros _; split; [apply Hsame, Hi|reflexivity]|intros _; exact Hi]|]. split; [contradiction|]. intros [_ ?]; discriminate. }
  pose proof (sorted_filter_eq same (fun r => self_ same r =? 1) nold HS Hsf) as Esame.
  assert (forall r, self_ same r = 0 \/ self_ same r = 1) as H01 by (intros r; unfold self_; destruct (in_dec _ _ _); tauto).
  assert (forall x, In x ITEMS -> 0 <= nn x) as Hnn by (intros x Hx; apply IF, Hx). assert (forall x, In x ITEMS -> 0 <= rp x < nold) as Hrp by (intros x Hx; apply IF, Hx).
  assert (forall r, 0 <= r < nold -> NoDup (IT r)) as HitN by (intros r _; eapply IT_NoDup; eassumption).
  assert (forall r, 0 <= r < nold -> forall x, In x (IT r) <-> In x ITEMS /\ rp x = r) as HitI by (intros r _ x; eapply IT_in; eassumption).
  pose proof (core_perm nn rp (self_ same) nold counts ITEMS IT Hnold Hnn Hrp H01 Lcn (items_NoDup mm mp) HitN HitI Gcn) as PERM. rewrite <- Esame in PERM.
  pose proof (items_NoDup mm mp) as NDI. fold ITEMS in NDI.
  assert (forall a b, 0 <= a -> a <= b -> b <= nold -> offn a <= offn b) as OM by (unfold offn; eapply off_mono; eassumption).
  assert (forall r, 0 <= r < nold -> offn (r + 1) = offn r + self_ same r + sumn nn (IT r)) as OS by (unfold offn; eapply off_step; eassumption).
  assert (forall x, In x ITEMS -> offn (rp x) + self_ same (rp x) <= start nn rp (self_ same) counts IT x /\ start nn rp (self_ same) counts IT x + nn x <= offn (rp x + 1)) as BR by (unfold offn; eapply block_range; eassumption).
  assert (forall x y, In x same -> 0 <= y <= nold -> x < y -> offn x < offn y) as OLT.
  { intros x y Hx Hy Hl. apply Hsf in Hx as [Hxr Hx1]. apply Z.eqb_eq in Hx1. pose proof (OS x Hxr) as E. assert (0 <= sumn nn (IT x)) by (eapply sumn_nonneg; try eassumption; intros z Hz; apply HitI in Hz; [tauto|exact Hxr]). pose proof (OM (x + 1) y ltac:(lia) ltac:(lia) ltac:(lia)). lia. }
  assert (NoDup same) as NDs. { rewrite Esame. apply NoDup_filter, zrange_NoDup. }
  destruct (map_onto_spec (map offn same) same nold (-1) 1) as (o2n & Eo2n & Lo2n & Go2n & Fo2n); [lia|exact Hnold|rewrite zlen_map; lia|exact NDs|exact Hsame|].
  exists (mk_numbering same (map offn same) (flat_map blk ITEMS) o2n (zsum counts)). split.
  - unfold modify_ents. rewrite Hcs. cbn [bind].
    rewrite (mapM_pure' _ (fun d => if exists_ mp d then (Some (reps_ ms ent_dim mm d), Some (degs_ mp d)) else (None, None))).
    2:{ intros d Hd. destruct (exists_ mp d) eqn:Hex; [|unfold exists_ in Hex; destruct (at_ mp d); [discriminate|reflexivity]]. destruct (have_facts ms ent_dim mm mp nprods Hml Hrep d Hex) as (Hdd & Em & Ep & L & _). rewrite Ep. destruct (Z.leb_spec d (mesh_dim ms)); [|lia].
        unfold the. rewrite Em. cbn [bind]. rewrite L, Z.eqb_refl. cbn [check bind]. destruct (reps_facts ms ent_dim mm mp nprods Hed Hml Hrep d Hex) as (Er & _). destruct (degs_facts ms ent_dim mm mp nprods Hml Hrep d Hex) as (Ed & _). rewrite Er. cbn [bind]. rewrite Ed. reflexivity. }
    cbn [bind]. rewrite !map_map.
    replace (map (fun x => fst (if exists_ mp x then (Some (reps_ ms ent_dim mm x), Some (degs_ mp x)) else (None, None))) (zrange 4)) with (map (fun d => if exists_ mp d then Some (reps_ ms ent_dim mm d) else None) (zrange 4)) by (apply map_ext; intros d; destruct (exists_ mp d); reflexivity).
    replace (map (fun x => snd (if exists_ mp x then (Some (reps_ ms ent_dim mm x), Some (degs_ mp x)) else (None, None))) (zrange 4)) with (map (fun d => if exists_ mp d then Some (degs_ mp d) else None) (zrange 4)) by (apply map_ext; intros d; destruct (exists_ mp d); reflexivity).
    rewrite Ecn. cbn [bind]. rewrite offset_scan_last. cbn [bind]. rewrite Eor. cbn [bind]. rewrite Eas. cbn [bind fst snd]. fold nold. rewrite Eo2n. reflexivity.
  - assert (forall x y, In x same -> zget o2n x = Ok y -> y = offn x) as Ho2n.
    { intros x y Hx Ey. apply In_zget in Hx as (i & Ei). specialize (Go2n i x 0 Ei ltac:(lia)). rewrite !Z.mul_1_r, !Z.add_0_r in Go2n. rewrite Go2n, zget_map, Ei in Ey. cbn [bind] in Ey. congruence. }
    assert (forall d md p, produced_by mm mp d md p -> exists m lo, In (d, m) ITEMS /\ mdof mm (d, m) = md /\ zget (list_at mp d) m = Ok lo /\ lo <= p < lo + nn (d, m) /\ zget (flat_map blk ITEMS) p = Ok (start nn rp (self_ same) counts IT (d, m) + (p - lo))) as HP.
    { intros d md p (mds & prods & m & Em & Ep & Emd & (lo & hi & Elo & Ehi & Hp)). assert (exists_ mp d = true) as Hex by (unfold exists_; rewrite Ep; reflexivity).
      assert (list_at mm d = mds) as Lm by (unfold list_at; rewrite Em; reflexivity). assert (list_at mp d = prods) as Lp by (unfold list_at; rewrite Ep; reflexivity).
      assert (0 <= m < zlen (list_at mm d)) as Hm by (rewrite Lm; eapply zget_bounds, Emd). assert (nn (d, m) = hi - lo) as En by (unfold nn, nn_; cbn [fst snd]; rewrite Lp, Elo, Ehi; reflexivity).
      exists m, lo. split; [apply (d_items_in ms ent_dim mm mp nprods Hed Hml same counts); assumption|]. split; [unfold mdof; cbn [fst snd]; rewrite Lm, Emd; reflexivity|]. split; [rewrite Lp; exact Elo|]. split; [lia|].
      replace p with (lo + (p - lo)) at 1 by lia. rewrite <- Lp in Elo; assert (0 <= p - lo < nn_ mp (d, m)) as Hq by (fold nn; lia); eapply product_number; eassumption. }
    assert (forall d m md rep, In (d, m) ITEMS -> mdof mm (d, m) = md -> represents ms ent_dim d md rep -> rp (d, m) = rep) as HRp.
    { intros d m md rep Hi <- Hre. destruct (IF _ Hi) as (_ & _ & _ & _ & Hre' & _). eapply represents_fun; eassumption. }
    unfold good_numbering. cbn [same2old same2new prods2new old2new nnew]. split; [exact Hin|]. split; [apply StronglySorted_Sorted, HS|]. split; [rewrite zlen_map; reflexivity|]. split; [eapply layout_total; eassumption|]. split; [exact PERM|].
    split; [apply StronglySorted_Sorted, sorted_map_lt; [exact HS|]; intros x y Hx Hy Hl; apply OLT; [exact Hx|apply Hsame in Hy; lia|exact Hl]|]. split; [fold nold; lia|].
    split; [|split; [|split; [|split]]].
    + intros i x y Ex Ey. specialize (Go2n i x 0 Ex ltac:(lia)). rewrite !Z.mul_1_r, !Z.add_0_r in Go2n. rewrite Go2n. exact Ey.
    + intros x Hx Hk. specialize (Fo2n x 0 Hx). rewrite Z.mul_1_r, Z.add_0_r in Fo2n. apply Fo2n; [|lia]. intros Hi. apply Hin in Hi. tauto.
    + intros d md p y rep Hp Hre Ey. destruct (HP d md p Hp) as (m & lo & Hi & Hmd & Elo & Hpr & Eyy). rewrite Eyy in Ey. injection Ey as <-. pose proof (HRp d m md rep Hi Hmd Hre) as Er. pose proof (BR _ Hi) as B. pose proof (Hrp _ Hi) as Rr. rewrite Er in *. split.
      * intros x xn Hk Exn. assert (0 <= x < nold) as Hxr by (apply zget_bounds in Exn; lia). assert (In x same) as Hxs by (apply Hin; tauto). apply Ho2n in Exn; [|exact Hxs]. subst xn. split; intros Hle.
        -- pose proof (OM x rep ltac:(lia) ltac:(lia) ltac:(lia)). destruct (Z.eq_dec x rep) as [->|]; [|pose proof (OLT x rep Hxs ltac:(lia) ltac:(lia)); specialize (H01 rep); lia]. apply Hsf in Hxs as [_ H1]. apply Z.eqb_eq in H1. lia.
        -- pose proof (OM (rep + 1) x ltac:(lia) ltac:(lia) ltac:(lia)). lia.
      * intros d' md' p' y' rep' Hp' Hre' Ey' Hl. destruct (HP d' md' p' Hp') as (m' & lo' & Hi' & Hmd' & Elo' & Hpr' & Eyy'). rewrite Eyy' in Ey'. injection Ey' as <-. pose proof (HRp d' m' md' rep' Hi' Hmd' Hre') as Er'. pose proof (BR _ Hi') as B'. pose proof (Hrp _ Hi') as Rr'. rewrite Er' in *.
        pose proof (OM (rep + 1) rep' ltac:(lia) ltac:(lia) ltac:(lia)). specialize (H01 rep'). lia.
    + intros d md p y Hp Hp' Ey. destruct (HP d md p Hp) as (m & lo & Hi & Hmd & Elo & Hpr & Eyy). destruct (HP d md (p + 1) Hp') as (m' & lo' & Hi' & Hmd' & Elo' & Hpr' & Eyy'). assert ((d, m) = (d, m')) as EE by (apply (md_inj ms ent_dim mm mp nprods Hc Hed Hml Hrep); try assumption; [reflexivity|congruence]). injection EE as <-. rewrite Elo in Elo'. injection Elo' as <-.
      rewrite Eyy in Ey. injection Ey as <-. rewrite Eyy'. f_equal. lia.
    + assert (0 <= zsum counts) as HZ. { pose proof (OM 0 nold ltac:(lia) Hnold ltac:(lia)) as M. unfold offn in M. rewrite off_0 in M. assert (off counts nold = zsum counts) as EO by (eapply off_total; eassumption). lia. }
      pose proof (Permutation_length PERM) as PL. rewrite zrange_length, app_length, map_length in PL. assert (zlen (flat_map blk ITEMS) = nprods) as LT by (eapply layout_total; eassumption). assert (length (flat_map blk ITEMS) = length (flat_map (block nn rp (self_ same) counts IT) ITEMS)) as EL by reflexivity. rewrite <- EL in PL. clear - HZ PL LT. unfold zlen in *. lia.
Qed.
