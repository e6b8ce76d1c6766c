From Verif Require Import Prelude M_Array M_Scan S_Scan M_Sort M_Map S_Map M_Dist P_Array P_Scan P_Map P_Fan P_SortSmall P_Dist P_Dist2.
Local Open Scope Z_scope.

(** * set_dest_ranks *)

Lemma mapM_rel {A B} (f : A -> res B) (l : list A) (P : Z -> A -> B -> Prop) :
  (forall i x, zget l i = Ok x -> exists y, f x = Ok y /\ P i x y) ->
  exists out, mapM f l = Ok out /\ zlen out = zlen l /\ forall i x y, zget l i = Ok x -> zget out i = Ok y -> P i x y.
Proof.
  revert P. induction l as [|x l IH]; intros P H.
  - exists []. split; [reflexivity|]. split; [reflexivity|]. intros i x y Hx. apply zget_bounds in Hx. cbn in Hx. lia.
  - destruct (H 0 x eq_refl) as (y & Ey & Py).
    assert (forall i z, zget (x :: l) (i + 1) = Ok z -> 0 <= i -> zget l i = Ok z) as Q.
    { intros i z Hz Hi. apply zget_ok in Hz as [_ Hz]. replace (Z.to_nat (i + 1)) with (S (Z.to_nat i)) in Hz by lia. apply zget_ok. split; [lia|exact Hz]. }
    assert (forall i z, zget l i = Ok z -> zget (x :: l) (i + 1) = Ok z) as Q'.
    { intros i z Hz. apply zget_ok in Hz as [Hi Hz]. apply zget_ok. split; [lia|]. replace (Z.to_nat (i + 1)) with (S (Z.to_nat i)) by lia. exact Hz. }
    destruct (IH (fun i => P (i + 1))) as (out & Eo & Lo & Go).
    { intros i z Hz. apply H, Q', Hz. }
    exists (y :: out). split; [cbn; rewrite Ey; cbn; rewrite Eo; reflexivity|]. split; [rewrite !zlen_cons; lia|].
    intros i a b Ha Hb. pose proof (zget_bounds _ _ _ Ha) as Bi. destruct (Z.eq_dec i 0) as [->|Hi0].
    + cbn in Ha, Hb. congruence.
    + replace i with (i - 1 + 1) in * by lia. apply Go; [apply Q; [exact Ha|lia]|].
      apply zget_ok in Hb as [_ Hb]. replace (Z.to_nat (i - 1 + 1)) with (S (Z.to_nat (i - 1))) in Hb by lia. apply zget_ok. split; [lia|exact Hb].
Qed.

Definition inb (x : Z) (l : list Z) : bool := existsb (Z.eqb x) l.
Lemma inb_spec x l : inb x l = true <-> In x l.
Proof. unfold inb. rewrite existsb_exists. split; [intros (y & Hy & E); apply Z.eqb_eq in E; congruence|intros H; exists x; split; [exact H|apply Z.eqb_refl]]. Qed.

Lemma concat_if {A} (b : A -> bool) l : concat (map (fun s => if b s then [s] else []) l) = filter b l.
Proof. induction l as [|x l IH]; [reflexivity|]. cbn. rewrite IH. destruct (b x); reflexivity. Qed.

Lemma sorted_filter (f : Z -> bool) l : StronglySorted Z.lt l -> StronglySorted Z.lt (filter f l).
Proof.
  induction 1 as [|x l HS IH F]; [constructor|]. cbn. destruct (f x); [|exact IH]. constructor; [exact IH|].
  apply Forall_forall. intros y Hy. apply filter_In in Hy as [Hy _]. eapply Forall_forall in F; eauto.
Qed.
Lemma zrange_sorted n : StronglySorted Z.lt (zrange n).
Proof.
  destruct (Z.le_gt_cases 0 n) as [Hn|Hn]; [|rewrite zrange_neg by lia; constructor].
  pattern n. apply natlike_ind; [constructor| |exact Hn]. intros k Hk IH. unfold Z.succ. rewrite zrange_succ by lia.
  apply sorted_snoc; [exact IH|]. intros y Hy. apply in_zrange in Hy. lia.
Qed.
Lemma sorted_NoDup l : StronglySorted Z.lt l -> NoDup l.
Proof. induction 1 as [|x l HS IH F]; constructor; [|exact IH]. intros I. eapply Forall_forall in F; eauto. lia. Qed.

Lemma degrees_final a p f u : (forall x, In x a -> x <= i32_max) -> final a p f u ->
  get_degrees f = Ok (map (same a) u) /\ f = offset_scan (map (same a) u) /\ zsum (map (same a) u) = zlen a.
Proof.
  intros Hfit (F1 & F2 & F3 & F4 & F5 & F6 & F7 & F8).
  destruct (offsets_of_degrees f F5) as (d & Ed & Ef).
  assert (d = map (same a) u) as ->.
  { destruct (get_degrees_spec f) as (d' & Ed' & Ld & Gd); [pose proof (zlen_nonneg u); lia|]. assert (d' = d) as -> by congruence.
    apply list_eq_zget; [rewrite zlen_map; lia|]. intros g Hg. destruct (zget_in_range u g ltac:(lia)) as (v & Hv).
    destruct (F7 g v Hv) as [G1 G2]. rewrite (Gd g _ _ G1 G2), (zget_map_ok _ _ _ _ Hv). f_equal. rewrite upto_eq. lia. }
  split; [exact Ed|]. split; [symmetry; exact Ef|].
  pose proof (offset_scan_last (map (same a) u)) as El. rewrite Ef in El. unfold last_of in El. rewrite F4 in El.
  replace (zlen u + 1 - 1) with (zlen u) in El by lia. congruence.
Qed.

Section ranks.
Context (ranks : list (list Z)).
Let n := zlen ranks.
Hypothesis ranks_in : forall s a x, zget ranks s = Ok a -> In x a -> 0 <= x < n.
Hypothesis n_fits : n <= i32_max + 1.

Definition count_to (s r : Z) : Z := match zget ranks s with Ok a => same a r | _ => 0 end.

Lemma a_fits s a : zget ranks s = Ok a -> forall x, In x a -> x <= i32_max.
Proof. intros Ha x Hx. pose proof (ranks_in s a x Ha Hx). lia. Qed.

Lemma set_dest_ranks_ok : exists ds, set_dest_ranks ranks = Ok ds /\ zlen ds = n /\ wf_world ds count_to /\
  (forall s d a, zget ds s = Ok d -> zget ranks s = Ok a -> exists p f u, d =
     Dist None (Some p) f (GraphComm (filter (fun t => match zget ranks t with Ok b => inb s b | _ => false end) (zrange n)) u)
          None None (msgs2content_R d) (graph_inverse (comm_F d)) /\ final a p f u) /\
  (forall s a, zget ranks s = Ok a -> sent (map comm_F ds) count_to s = zlen a).
Proof.
  unfold set_dest_ranks.
  destruct (mapM_rel sort_small_range ranks (fun s a x => exists p f u, x = (p, f, u) /\ final a p f u)) as (sorts & Es & Ls & Gs).
  { intros s a Ha. destruct (sort_small_range_final a (a_fits s a Ha)) as (p & f & u & E & F). exists (p, f, u). split; [exact E|]. eauto. }
  rewrite Es. cbn [bind].
  assert (forall s, 0 <= s < n -> exists a p f u, zget ranks s = Ok a /\ zget sorts s = Ok (p, f, u) /\ final a p f u) as Q.
  { intros s Hs. destruct (zget_in_range ranks s Hs) as (a & Ha). destruct (zget_in_range sorts s ltac:(lia)) as (x & Hx).
    destruct (Gs s a x Ha Hx) as (p & f & u & -> & F). exists a, p, f, u. auto. }
  (* the graph *)
  assert (exists comms, graph (map snd sorts) = Ok comms /\ zlen comms = n /\ forall r g, zget comms r = Ok g ->
    sources g = filter (fun t => match zget ranks t with Ok b => inb r b | _ => false end) (zrange n) /\
    exists x, zget sorts r = Ok x /\ destinations g = snd x) as (comms & Ec & Lc & Gc).
  { unfold graph. rewrite zlen_map, Ls. fold n.
    replace (forallb _ _) with true.
    2:{ symmetry. apply forallb_forall. intros us Hus. apply forallb_forall. intros r Hr.
        apply In_zget in Hus as (s & Hs). apply zget_map_inv in Hs as (x & Hx & ->).
        destruct (Q s) as (a & p & f & u & Ha & Hx' & F); [pose proof (zget_bounds _ _ _ Hx); lia|].
        assert (x = (p, f, u)) as -> by congruence. cbn in Hr. destruct F as (_ & F2 & _). apply F2 in Hr.
        pose proof (ranks_in s a r Ha Hr). apply andb_true_iff. rewrite Z.leb_le, Z.ltb_lt. lia. }
    apply tabulate_rel; [apply zlen_nonneg|]. intros r Hr.
    rewrite (mapM_map_ok _ (fun t => if (match zget ranks t with Ok b => inb r b | _ => false end) then [t] else [])).
    2:{ intros t Ht. apply in_zrange in Ht. destruct (Q t Ht) as (a & p & f & u & Ha & Hx & F). rewrite (zget_map_ok _ _ _ _ Hx). cbn [bind snd].
        rewrite Ha. f_equal. destruct F as (_ & F2 & F3 & _). destruct (inb r a) eqn:I.
        - apply inb_spec in I. rewrite occurrences_one; [reflexivity|apply sorted_NoDup, F3|apply F2, I].
        - rewrite occurrences_none; [reflexivity|]. intros H. apply F2, inb_spec in H. congruence. }
    cbn [bind]. rewrite concat_if. destruct (Q r Hr) as (a & p & f & u & Ha & Hx & F). rewrite (zget_map_ok _ _ _ _ Hx). cbn [bind].
    eexists. split; [reflexivity|]. split; [reflexivity|]. exists (p, f, u). auto. }
  rewrite Ec. cbn [bind].
  (* the wiring *)
  pose (rd0 := map (fun r => match zget comms r with Ok h => offset_scan (map (fun s => count_to s r) (sources h)) | _ => [] end) (zrange n)).
  assert (forall s r a, zget ranks s = Ok a -> In r a -> exists h, zget comms r = Ok h /\ In s (sources h)) as To.
  { intros s r a Ha Hr. pose proof (ranks_in s a r Ha Hr) as Br. destruct (zget_in_range comms r ltac:(lia)) as (h & Hh).
    exists h. split; [exact Hh|]. destruct (Gc r h Hh) as [-> _]. apply filter_In. split; [apply in_zrange; unfold n; eapply zget_bounds; eauto|].
    rewrite Ha. apply inb_spec, Hr. }
  assert (wired comms (map (fun x => snd (fst x)) sorts) rd0 count_to) as Wd.
  { assert (forall s g, zget comms s = Ok g -> exists a p f u, zget ranks s = Ok a /\ zget sorts s = Ok (p, f, u) /\ final a p f u /\ destinations g = u /\
      0 <= s < n) as K.
    { intros s g Hg. pose proof (zget_bounds _ _ _ Hg). destruct (Q s ltac:(lia)) as (a & p & f & u & Ha & Hx & F).
      destruct (Gc s g Hg) as [_ (x & Hx' & Ed)]. assert (x = (p, f, u)) as -> by congruence. exists a, p, f, u.
      split; [exact Ha|]. split; [exact Hx|]. split; [exact F|]. split; [exact Ed|lia]. }
    constructor.
    - intros s g Hg. destruct (K s g Hg) as (a & p & f & u & Ha & Hx & F & -> & _). rewrite (zget_map_ok _ _ _ _ Hx). cbn [fst snd].
      destruct (degrees_final a p f u (a_fits s a Ha) F) as (_ & -> & _). f_equal. f_equal. apply map_ext. intros r. unfold count_to. rewrite Ha. reflexivity.
    - intros s g Hg. destruct (K s g Hg) as (a & p & f & u & Ha & Hx & F & _ & Bs). unfold rd0. rewrite zget_map, zget_zrange by exact Bs.
      cbn [bind]. rewrite Hg. reflexivity.
    - intros s g Hg. destruct (K s g Hg) as (a & p & f & u & Ha & Hx & F & -> & _). apply sorted_NoDup, F.
    - intros s g Hg. destruct (Gc s g Hg) as [-> _]. apply sorted_NoDup, sorted_filter, zrange_sorted.
    - intros s g r Hg Hr. destruct (K s g Hg) as (a & p & f & u & Ha & Hx & F & E & _). rewrite E in Hr. apply F in Hr. eapply To; eauto.
    - intros r g s Hg Hs. destruct (Gc r g Hg) as [E _]. rewrite E in Hs. apply filter_In in Hs as [Bs Hs]. apply in_zrange in Bs.
      destruct (zget_in_range comms s ltac:(lia)) as (h & Hh). exists h. split; [exact Hh|].
      destruct (K s h Hh) as (a & p & f & u & Ha & Hx & F & -> & _). rewrite Ha in Hs. apply inb_spec in Hs. apply F, Hs.
    - intros s g r Hg Hr. destruct (K s g Hg) as (a & p & f & u & Ha & Hx & F & E & _). rewrite E in Hr. apply F in Hr.
      unfold count_to. rewrite Ha. eapply count_pos; [exact Hr|apply Z.eqb_refl]. }
  (* the degrees *)
  destruct (mapM_rel (fun x : list Z * list Z * list Z => get_degrees (snd (fst x))) sorts
    (fun s x d => d = map (count_to s) (snd x))) as (fdeg & Ef & Lf & Gf).
  { intros s x Hx. destruct (Q s) as (a & p & f & u & Ha & Hx' & F); [pose proof (zget_bounds _ _ _ Hx); lia|].
    assert (x = (p, f, u)) as -> by congruence. cbn [fst snd]. destruct (degrees_final a p f u (a_fits s a Ha) F) as (-> & _).
    eexists. split; [reflexivity|]. apply map_ext. intros r. unfold count_to. rewrite Ha. reflexivity. }
  rewrite Ef. cbn [bind].
  assert (exists rdeg, alltoall comms fdeg = Ok rdeg /\ zlen rdeg = zlen comms /\ forall r d, zget rdeg r = Ok d ->
    exists h, zget comms r = Ok h /\ d = map (fun s => count_to s r) (sources h)) as (rdeg & Er & Lr & Gr).
  { unfold alltoall. rewrite (all_expected_ok _ _ _ _ Wd). cbn [bind]. apply tabulate_rel; [apply zlen_nonneg|].
    intros r Hr. destruct (zget_in_range comms r Hr) as (h & Hh). rewrite Hh. cbn [bind].
    destruct (tabulate_rel (zlen (sources h)) (fun j => '(s, i) <- match_msg comms r j ;; xs <- zget fdeg s ;; zget xs i)
      (fun j x => exists s, zget (sources h) j = Ok s /\ x = count_to s r)) as (d & Ed & Ld & Gd); [apply zlen_nonneg| |].
    { intros j Hj. destruct (zget_in_range (sources h) j Hj) as (s & Hs). destruct (match_msg_ok _ _ _ _ Wd r h j s Hh Hs) as (g & i & Hg & Hi & ->). cbn [bind].
      pose proof (zget_bounds _ _ _ Hg). destruct (zget_in_range fdeg s ltac:(lia)) as (xs & Hxs). rewrite Hxs. cbn [bind].
      destruct (Gc s g Hg) as [_ (x & Hx & Ex)]. rewrite (Gf s x xs Hx Hxs). rewrite zget_map, <- Ex, Hi. cbn [bind].
      eexists. split; [reflexivity|]. eauto. }
    rewrite Ed. eexists. split; [reflexivity|]. exists h. split; [reflexivity|].
    apply list_eq_zget; [rewrite zlen_map; lia|]. intros j Hj. destruct (zget_in_range d j ltac:(lia)) as (x & Hx). rewrite Hx.
    destruct (Gd j x Hx) as (s & Hs & ->). rewrite (zget_map_ok _ _ _ _ Hs). reflexivity. }
  rewrite Er. cbn [bind]. fold n.
  destruct (tabulate_rel n (fun r => '(perm, fan, _) <- zget sorts r ;; g <- zget comms r ;; rd <- zget rdeg r ;;
     Ok (Dist None (Some perm) fan g None None (offset_scan rd) (graph_inverse g)))
    (fun s d => exists a p f u, zget ranks s = Ok a /\ zget sorts s = Ok (p, f, u) /\ final a p f u /\ zget comms s = Ok (comm_F d) /\
       zget rd0 s = Ok (msgs2content_R d) /\ d = Dist None (Some p) f (comm_F d) None None (msgs2content_R d) (graph_inverse (comm_F d)) /\ destinations (comm_F d) = u))
    as (ds & Ed & Ld & Gd); [apply zlen_nonneg| |].
  { intros r Hr. destruct (Q r Hr) as (a & p & f & u & Ha & Hx & F). rewrite Hx. cbn [bind].
    destruct (zget_in_range comms r ltac:(lia)) as (g & Hg). rewrite Hg. cbn [bind].
    destruct (zget_in_range rdeg r ltac:(lia)) as (d & Hd). rewrite Hd. cbn [bind].
    eexists. split; [reflexivity|]. exists a, p, f, u. cbn. split; [exact Ha|]. split; [reflexivity|]. split; [exact F|]. split; [reflexivity|].
    destruct (Gr r d Hd) as (h & Hh & ->). assert (h = g) as -> by congruence. split; [apply (w_rd _ _ _ _ Wd r g Hg)|]. split; [reflexivity|].
    destruct (Gc r g Hg) as [_ (x & Hx' & E)]. assert (x = (p, f, u)) as -> by congruence. exact E. }
  exists ds. split; [exact Ed|]. split; [exact Ld|].
  assert (map comm_F ds = comms) as E1.
  { apply list_eq_zget; [rewrite zlen_map; lia|]. rewrite zlen_map. intros i Hi. destruct (zget_in_range ds i Hi) as (d & Hd).
    rewrite (zget_map_ok _ _ _ _ Hd). destruct (Gd i d Hd) as (a & p & f & u & _ & _ & _ & -> & _). reflexivity. }
  assert (map msgs2content_F ds = map (fun x => snd (fst x)) sorts) as E2.
  { apply list_eq_zget; [rewrite !zlen_map; lia|]. rewrite zlen_map. intros i Hi. destruct (zget_in_range ds i Hi) as (d & Hd).
    rewrite (zget_map_ok _ _ _ _ Hd). destruct (Gd i d Hd) as (a & p & f & u & _ & Hx & _ & _ & _ & -> & _). rewrite (zget_map_ok _ _ _ _ Hx). reflexivity. }
  assert (map msgs2content_R ds = rd0) as E3.
  { apply list_eq_zget; [unfold rd0; rewrite !zlen_map, zlen_zrange by apply zlen_nonneg; exact Ld|]. rewrite zlen_map. intros i Hi. destruct (zget_in_range ds i Hi) as (d & Hd).
    rewrite (zget_map_ok _ _ _ _ Hd). destruct (Gd i d Hd) as (a & p & f & u & _ & _ & _ & _ & -> & _). reflexivity. }
  assert (forall s a, zget ranks s = Ok a -> sent (map comm_F ds) count_to s = zlen a) as Sn.
  { intros s a Ha. destruct (zget_in_range ds s) as (d & Hd); [rewrite Ld; unfold n; eapply zget_bounds; eauto|].
    destruct (Gd s d Hd) as (a' & p & f & u & Ha' & Hx & F & Hc & _ & _ & Eu). assert (a' = a) as -> by congruence.
    unfold sent. rewrite (zget_map_ok _ _ _ _ Hd), Eu. destruct (degrees_final a p f u (a_fits s a Ha) F) as (_ & _ & <-).
    f_equal. apply map_ext. intros r. unfold count_to. rewrite Ha. reflexivity. }
  split; [|split; [|exact Sn]].
  - constructor.
    + rewrite E1, E2, E3. exact Wd.
    + intros r d Hd. destruct (Gd r d Hd) as (a & p & f & u & _ & _ & _ & _ & _ & -> & _). reflexivity.
    + intros r d Hd. destruct (Gd r d Hd) as (a & p & f & u & Ha & _ & F & _ & _ & -> & _). cbn [items2content_F perm_ok]. rewrite (Sn r a Ha).
      split; [eapply final_perm; eauto using a_fits|apply F].
    + intros r d Hd. destruct (Gd r d Hd) as (a & p & f & u & Ha & _ & F & _ & _ & -> & _). exact Logic.I.
    + intros r d Hd. destruct (Gd r d Hd) as (a & p & f & u & Ha & _ & F & _ & _ & -> & _). exact Logic.I.
    + intros r d Hd. destruct (Gd r d Hd) as (a & p & f & u & Ha & _ & F & _ & _ & -> & _). exact Logic.I.
  - intros s d a Hd Ha. destruct (Gd s d Hd) as (a' & p & f & u & Ha' & _ & F & Hc & _ & E & Eu). assert (a' = a) as -> by congruence.
    exists p, f, u. split; [|exact F]. destruct (Gc s _ Hc) as [Es' _]. rewrite E at 1. f_equal. rewrite <- Eu, <- Es'. destruct (comm_F d); reflexivity.
Qed.
End ranks.
