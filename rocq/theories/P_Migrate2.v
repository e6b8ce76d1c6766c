From Verif Require Import Prelude M_Array M_Par M_Scan S_Scan M_Sort S_Sort M_Map S_Map M_Dist S_Dist M_Owners S_Owners P_Array P_Scan P_Map P_Map2 P_Fan P_Invert P_Dist P_Dist2 P_Dist3 P_Dist4 P_Dist5 P_Dist6 P_Link P_Link2 P_Owners M_Migrate P_Migrate.
Local Open Scope Z_scope.

Lemma group_le f q q' i i' : is_fan f -> in_group f q i -> in_group f q' i' -> i <= i' -> q <= q'.
Proof.
  intros F (lo & hi & H1 & H2 & H3) (lo' & hi' & H4 & H5 & H6) Hi. destruct (Z.le_gt_cases q q') as [|G]; [assumption|exfalso].
  pose proof (fan_mono f (q' + 1) q _ _ F H5 H1 ltac:(lia)). lia.
Qed.

Lemma rank_choice {B} n (P : Z -> B -> Prop) : 0 <= n -> (forall r, 0 <= r < n -> exists p, P r p) -> exists ps, zlen ps = n /\ forall r p, zget ps r = Ok p -> P r p.
Proof.
  intros Hn One. assert (forall k : nat, Z.of_nat k <= n -> exists ps, zlen ps = Z.of_nat k /\ forall r p, zget ps r = Ok p -> P r p) as H.
  - induction k as [|k IH]; intros Hk.
    + exists []. split; [reflexivity|]. intros r p Hp. apply zget_bounds in Hp. cbn in Hp. lia.
    + destruct IH as (ps & Lps & Gps); [lia|]. destruct (One (Z.of_nat k) ltac:(lia)) as (p & Hp). exists (ps ++ [p]). split; [rewrite zlen_app, Lps; unfold zlen; cbn; lia|].
      intros r p' Hr. pose proof (zget_bounds _ _ _ Hr) as B0. rewrite zlen_app, Lps in B0. change (zlen [p]) with 1 in B0.
      destruct (Z.lt_ge_cases r (Z.of_nat k)).
      * rewrite zget_app_l in Hr by lia. exact (Gps r p' Hr).
      * rewrite zget_app_r in Hr by lia. assert (r = Z.of_nat k) as -> by lia. rewrite Lps, Z.sub_diag in Hr. cbn in Hr. injection Hr as <-. exact Hp.
  - specialize (H (Z.to_nat n)). rewrite Z2Nat.id in H by lia. apply H. lia.
Qed.

(** * what the server of a place sees, with the ranks of the items *)
Section served.
Context (ds : list dist) (cnt : Z -> Z -> Z) (ranks idxs : list (list Z)) (nroots : list Z).
Hypothesis K : link ds cnt ranks idxs nroots.

Lemma served : exists who, routes ranks who /\
  (forall A (data : list (list A)) width, 0 < width -> data_per_item ranks data width ->
    exists out, exch ds data width = Ok out /\ delivered who data out width) /\
  (forall r w i' s i, zget who r = Ok w -> (zget w i' = Ok (s, i) <-> item_link ds cnt s i r i')) /\
  (forall r w, zget who r = Ok w -> zlen w = received (map comm_F ds) cnt r) /\
  forall r d, zget ds r = Ok d -> exists w k f, zget who r = Ok w /\ zget nroots r = Ok k /\ roots2items_R d = Some f /\ is_fan f /\ zlen f = k + 1 /\ last_of f = Ok (zlen w) /\
    nitems (invert1 d) = Ok (zlen w) /\ items2ranks (invert1 d) = Ok (map fst w) /\
    forall c s i, zget w c = Ok (s, i) -> goes_to ranks s i r /\ forall q, in_group f q c <-> goes_to idxs s i q.
Proof.
  destruct (server_view ds cnt ranks idxs nroots K) as (who & Rw & Xw & Fw & L & _ & Mw & _ & Kw & Sw). exists who.
  split; [exact Rw|]. split; [exact Xw|]. split; [exact Kw|]. split; [exact Sw|]. intros r d Hd.
  destruct (zget_in_range who r) as (w & Hw); [rewrite (proj1 Rw), <- L; eapply zget_bounds; eauto|].
  destruct (zget_in_range nroots r) as (k & Hk); [rewrite (proj1 (proj2 (k_addr _ _ _ _ _ K))), <- L; eapply zget_bounds; eauto|].
  destruct (Fw r w k Hw Hk) as (f & F1 & F2 & F3 & (d' & Hd' & F4) & F5). assert (d' = d) as -> by congruence.
  exists w, k, f. repeat (split; [assumption|]). split; [|split].
  - unfold nitems. pose proof (wf_invert _ _ (k_world _ _ _ _ _ K)) as W. pose proof (msgs_last (invert ds) _ W r (invert1 d) (zget_map_ok _ _ _ _ Hd)) as E.
    rewrite E, (proj1 (invert_traffic ds cnt (k_world _ _ _ _ _ K) r)), (Sw r w Hw). reflexivity.
  - destruct (Mw r d w Hd Hw) as (m & Em & Lm & Gm). unfold items2ranks. rewrite Em. cbn [bind].
    assert (forall c j, zget m c = Ok j -> exists s i, zget w c = Ok (s, i) /\ zget (msgs2ranks (invert1 d)) j = Ok s) as Gm'.
    { intros c j Hj. destruct (zget_in_range w c) as ([s i] & Hc); [rewrite <- Lm; eapply zget_bounds; eauto|]. destruct (Gm c s i Hc) as (j' & Hj' & Hs). assert (j' = j) as -> by congruence. eauto. }
    destruct (compound_maps_spec m (msgs2ranks (invert1 d))) as (x & Ex & Lx & Gx).
    { intros b Hb. apply P_Map.In_zget in Hb as (c & Hc). destruct (Gm' c b Hc) as (s & i & _ & Hs). eapply zget_bounds; eauto. }
    rewrite Ex. f_equal. apply list_eq_zget; [rewrite zlen_map; lia|]. intros c Hc. destruct (zget_in_range m c ltac:(lia)) as (j & Hj). destruct (Gm' c j Hj) as (s & i & Hwc & Hs).
    rewrite (Gx c j Hj), Hs, (zget_map_ok _ _ _ _ Hwc). reflexivity.
  - intros c s i Hc. split; [apply (proj2 Rw r w Hw); eapply zget_In; eauto|]. intros q. apply F5. exact Hc.
Qed.
End served.

(** on one rank: the uses [u] kept among the received uses [w] grouped by the fan [f]; [ur] their ranks and [uf] their fan *)
Record uniq_at (w : list (Z * Z)) (f u ur uf : list Z) : Prop := {
  q_len : zlen ur = zlen u;
  q_nodup : NoDup u;
  q_fan : is_fan uf;
  q_last : last_of uf = Ok (zlen u);
  q_roots : zlen uf = zlen f;
  q_rank : forall c x s i, zget u c = Ok x -> zget w x = Ok (s, i) -> zget ur c = Ok s;
  q_range : forall c x, zget u c = Ok x -> 0 <= x < zlen w;
  q_group : forall c x q, zget u c = Ok x -> (in_group uf q c <-> in_group f q x);
  q_kept : forall q x s i, in_group f q x -> zget w x = Ok (s, i) -> exists c y i', zget u c = Ok y /\ in_group f q y /\ zget w y = Ok (s, i');
  q_once : forall q c c' x x' s i i', zget u c = Ok x -> zget u c' = Ok x' -> in_group f q x -> in_group f q x' -> zget w x = Ok (s, i) -> zget w x' = Ok (s, i') -> c = c'
}.

Lemma uniq_rank (w : list (Z * Z)) f : is_fan f -> last_of f = Ok (zlen w) -> exists u ur uf,
  ('(keep, degrees) <- uniq_marks f (map fst w) (zlen w) ;;
   us <- collect_marked keep ;; ur <- unmap us (map fst w) 1 ;; Ok (ur, offset_scan degrees)) = Ok (ur, uf) /\ uniq_at w f u ur uf.
Proof.
  intros Ff Ll. pose (rk := fun x => match zget w x with Ok p => fst p | _ => 0 end).
  assert (forall x, 0 <= x < zlen (map fst w) -> zget (map fst w) x = Ok (rk x)) as Rk.
  { intros x Hx. rewrite zlen_map in Hx. destruct (zget_in_range w x Hx) as (p & Hp). rewrite (zget_map_ok _ _ _ _ Hp). unfold rk. rewrite Hp. reflexivity. }
  assert (zlen w = zlen (map fst w)) as Lw by (symmetry; apply zlen_map). pose proof Ll as Ll'. rewrite Lw in Ll'. rewrite Lw.
  destruct (uniq_marks_ok (map fst w) rk Rk f Ff Ll') as (keep & degrees & Em & Lk & Ld & Gk & Gd). rewrite Em. cbn [bind].
  destruct (uniq_groups (map fst w) rk Rk f keep degrees Ff Ll' Lk Ld Gk Gd) as (u & Eu & Su & Iu & Fu & Lfu & Llu & Gu). rewrite Eu. cbn [bind].
  destruct (unmap_spec u (map fst w) 1 ltac:(lia)) as (ur & Eur & Lur & Gur).
  { intros x Hx. apply Iu in Hx as (q & lo & hi & H1 & H2 & H3 & _). destruct (in_group_range f _ q x Ff Ll') as [B _]; [exists lo, hi; auto|]. lia. }
  rewrite Eur. cbn [bind]. exists u, ur, (offset_scan degrees). split; [reflexivity|].
  assert (forall c x, zget u c = Ok x -> 0 <= x < zlen w) as Bu.
  { intros c x Hc. apply zget_In in Hc. apply Iu in Hc as (q & lo & hi & H1 & H2 & H3 & _). rewrite Lw. eapply (in_group_range f _ q x Ff Ll'). exists lo, hi. auto. }
  assert (NoDup u) as Nu.
  { apply NoDup_zget_inv. intros i j x Hi Hj. destruct (Z.lt_trichotomy i j) as [G|[G|G]]; [|exact G|]; exfalso.
    - pose proof (strongly_zget u i j x x Su Hi Hj G). lia.
    - pose proof (strongly_zget u j i x x Su Hj Hi G). lia. }
  constructor; [lia|exact Nu|exact Fu|exact Llu|exact Lfu| |exact Bu|exact Gu| |].
  { intros c x s i Hc Hx. pose proof (Gur c x 0 Hc ltac:(lia)) as G. rewrite !Z.mul_1_r, !Z.add_0_r in G. rewrite G, (zget_map_ok _ _ _ _ Hx). reflexivity. }
  - intros q x s i (lo & hi & H1 & H2 & H3) Hx.
    assert (exists y, lo <= y <= x /\ rk y = s /\ again rk lo y = false) as (y & By & Ry & Ay).
    { assert (forall n y, (Z.to_nat (y - lo) < n)%nat -> lo <= y <= x -> rk y = s -> exists y, lo <= y <= x /\ rk y = s /\ again rk lo y = false) as Ind.
      { induction n as [|n IH]; intros y Hn By Ry; [lia|]. destruct (again rk lo y) eqn:A; [|eauto].
        unfold again in A. apply existsb_exists in A as (v & Hv & E). apply in_zfromto in Hv. apply Z.eqb_eq in E. apply (IH v); [lia|lia|congruence]. }
      apply (Ind (S (Z.to_nat (x - lo))) x); [lia|lia|]. unfold rk. rewrite Hx. reflexivity. }
    assert (In y u) as Iy by (apply Iu; exists q, lo, hi; repeat split; auto; lia). apply P_Map.In_zget in Iy as (c & Hc).
    destruct (zget_in_range w y (Bu c y Hc)) as ([s' i'] & Hy). exists c, y, i'. split; [exact Hc|]. split; [exists lo, hi; repeat split; auto; lia|].
    unfold rk in Ry. rewrite Hy in Ry. cbn in Ry. subst s'. exact Hy.
  - intros q c c' x x' s i i' Hc Hc' (lo & hi & H1 & H2 & H3) (lo' & hi' & H1' & H2' & H3') Hx Hx'.
    assert (lo' = lo) as -> by congruence. assert (hi' = hi) as -> by congruence.
    assert (forall c x, zget u c = Ok x -> lo <= x < hi -> again rk lo x = false) as Ag.
    { intros c0 x0 Hc0 Hx0. apply zget_In in Hc0. apply Iu in Hc0 as (q0 & lo0 & hi0 & Q1 & Q2 & Q3 & Q4).
      assert (q0 = q) as -> by (eapply (in_group_unique f q0 q x0 Ff); [exists lo0, hi0; auto|exists lo, hi; auto]). assert (lo0 = lo) as -> by congruence. exact Q4. }
    assert (rk x = s) as R1 by (unfold rk; rewrite Hx; reflexivity). assert (rk x' = s) as R2 by (unfold rk; rewrite Hx'; reflexivity).
    assert (x = x') as <-; [|eapply NoDup_zget; eauto].
    destruct (Z.lt_trichotomy x x') as [G|[G|G]]; [|exact G|]; exfalso.
    + specialize (Ag c' x' Hc' H3'). unfold again in Ag. rewrite <- Bool.not_true_iff_false in Ag. apply Ag, existsb_exists. exists x. split; [apply in_zfromto; lia|apply Z.eqb_eq; congruence].
    + specialize (Ag c x Hc H3). unfold again in Ag. rewrite <- Bool.not_true_iff_false in Ag. apply Ag, existsb_exists. exists x'. split; [apply in_zfromto; lia|apply Z.eqb_eq; congruence].
Qed.

(** * one copy of each place on each rank that uses it *)
Section copies.
Context (uses : list dist) (cnt : Z -> Z -> Z) (ranks idxs : list (list Z)) (nroots : list Z).
Hypothesis K : link uses cnt ranks idxs nroots.
Hypothesis fits : zlen ranks <= i32_max + 1.

Lemma get_new_copies_ok keys : data_per_root nroots keys 1 ->
  exists new cnt2 src, get_new_copies2old_owners uses keys = Ok new /\ link new cnt2 (map (map fst) src) (map (map snd) src) nroots /\ zlen src = zlen ranks /\
  forall s l, zget src s = Ok l -> NoDup l /\ (forall t j, In (t, j) l <-> exists i, owner_is ranks idxs s i t j) /\ by_key_then_sender keys l.
Proof.
  intros Dk. destruct (served _ _ _ _ _ K) as (who & Rw & _ & Kw & Sw & Sv).
  pose proof (k_len _ _ _ _ _ K) as Lu. destruct (k_addr _ _ _ _ _ K) as (A1 & A2 & A3 & A4 & A5).
  destruct (rank_choice (zlen ranks) (fun t (p : list (Z * Z) * list Z * list Z * (list Z * list Z)) => let '(w, f, u, (ur, uf)) := p in
     exists d k, zget uses t = Ok d /\ zget who t = Ok w /\ zget nroots t = Ok k /\ roots2items_R d = Some f /\ nitems (invert1 d) = Ok (zlen w) /\ items2ranks (invert1 d) = Ok (map fst w) /\
     ('(keep, degrees) <- uniq_marks f (map fst w) (zlen w) ;; us <- collect_marked keep ;; ur <- unmap us (map fst w) 1 ;; Ok (ur, offset_scan degrees)) = Ok (ur, uf) /\
     is_fan f /\ zlen f = k + 1 /\ (forall c s i, zget w c = Ok (s, i) -> goes_to ranks s i t /\ forall q, in_group f q c <-> goes_to idxs s i q) /\ (forall s i, goes_to ranks s i t -> exists c, zget w c = Ok (s, i)) /\
     uniq_at w f u ur uf)) as (ps & Lps & Gps); [apply zlen_nonneg| |].
  { intros t Ht. destruct (zget_in_range uses t ltac:(lia)) as (d & Hd). destruct (Sv t d Hd) as (w & k & f & Hw & Hk & Ef & Ff & Lf & Ll & En & Er & Gw).
    destruct (uniq_rank w f Ff Ll) as (u & ur & uf & Eu & U). exists (w, f, u, (ur, uf)). exists d, k. repeat (split; [assumption|]).
    split; [|exact U]. intros s i Hg. apply P_Map.In_zget. apply (proj2 Rw t w Hw). exact Hg. }
  pose (parts := map snd ps).
  assert (forall t w f u ur uf, zget ps t = Ok (w, f, u, (ur, uf)) -> zget (map fst parts) t = Ok ur /\ zget (map snd parts) t = Ok uf) as Gparts.
  { intros t w f u ur uf Hp. unfold parts. rewrite !map_map, !(zget_map_ok _ _ _ _ Hp). auto. }
  assert (forall t, 0 <= t < zlen ranks -> exists w f u ur uf, zget ps t = Ok (w, f, u, (ur, uf))) as At.
  { intros t Ht. destruct (zget_in_range ps t ltac:(lia)) as ([[[w f] u] [ur uf]] & Hp). eauto 6. }
  unfold get_new_copies2old_owners, get_old_owners2uniq_uses.
  match goal with |- context [on_ranks (invert uses) ?F] => assert (on_ranks (invert uses) F = Ok parts) as -> end.
  { unfold on_ranks. assert (zlen (invert uses) = zlen ranks) as -> by (unfold invert; rewrite zlen_map; exact Lu). apply tabulate_ok; [apply zlen_nonneg|]. unfold parts. rewrite zlen_map. split; [exact Lps|].
    intros t Ht. destruct (At t Ht) as (w & f & u & ur & uf & Hp). exists (ur, uf). split; [|rewrite (zget_map_ok _ _ _ _ Hp); reflexivity].
    destruct (Gps t _ Hp) as (d & k & Hd & _ & _ & Ef & En & Er & Eu & _). unfold invert. rewrite (zget_map_ok _ _ _ _ Hd). cbn [bind invert1 roots2items_F]. rewrite Ef.
    change (Dist (roots2items_R d) (items2content_R d) (msgs2content_R d) (comm_R d) (roots2items_F d) (items2content_F d) (msgs2content_F d) (comm_F d)) with (invert1 d). rewrite En, Er. cbn [bind]. exact Eu. }
  cbn [bind]. set (uranks := map fst parts) in *. set (fans := map snd parts) in *.
  assert (zlen uranks = zlen ranks) as Lur by (unfold uranks, parts; rewrite !zlen_map; exact Lps). assert (zlen fans = zlen ranks) as Lfa by (unfold fans, parts; rewrite !zlen_map; exact Lps).
  (* a kept use *)
  assert (forall t c s, goes_to uranks t c s -> exists w f u ur uf x i, zget ps t = Ok (w, f, u, (ur, uf)) /\ zget u c = Ok x /\ zget w x = Ok (s, i)) as Ug.
  { intros t c s (a & Ha & Hc). destruct (At t) as (w & f & u & ur & uf & Hp); [rewrite <- Lur; eapply zget_bounds; eauto|].
    destruct (Gparts _ _ _ _ _ _ Hp) as [P1 P2]. assert (ur = a) as -> by congruence. destruct (Gps t _ Hp) as (d & k & _ & _ & _ & _ & _ & _ & _ & _ & _ & _ & _ & U).
    destruct (zget_in_range u c) as (x & Hx); [rewrite <- (q_len _ _ _ _ _ U); eapply zget_bounds; eauto|].
    destruct (zget_in_range w x (q_range _ _ _ _ _ U c x Hx)) as ([s' i] & Hwx). exists w, f, u, a, uf, x, i. split; [exact Hp|]. split; [exact Hx|]. pose proof (q_rank _ _ _ _ _ U c x s' i Hx Hwx). congruence. }
  destruct (sorted_copies_link uranks fans nroots) with (keys := keys) as (ds0 & dsr & ds3 & cnt2 & src & who2 & E0 & Er & E3 & Kl & Rw2 & Ls & Gs & Ord); [|lia|lia|lia| |exact Dk|].
  { intros t c s Hg. destruct (Ug t c s Hg) as (w & f & u & ur & uf & x & i & Hp & Hx & Hw). rewrite Lur. destruct (Gps t _ Hp) as (d & k & _ & _ & _ & _ & _ & _ & _ & _ & _ & Gw & _).
    destruct (Gw x s i Hw) as [(a & Ha & _) _]. eapply zget_bounds; eauto. }
  { intros t a f k Ha Hf Hk. destruct (At t) as (w & f0 & u & ur & uf & Hp); [rewrite <- Lur; eapply zget_bounds; eauto|]. destruct (Gparts _ _ _ _ _ _ Hp) as [P1 P2].
    destruct (Gps t _ Hp) as (d & k' & _ & _ & Hk' & _ & _ & _ & _ & _ & Lf & _ & _ & U).
    assert (ur = a) as -> by congruence. assert (uf = f) as -> by congruence. assert (k' = k) as -> by congruence. destruct U as [U1 U2 U3 U4 U5]. rewrite U1. split; [exact U3|]. split; [exact U4|]. lia. }
  rewrite E0. cbn [bind]. rewrite Er. cbn [bind]. rewrite E3. cbn [bind]. exists (invert ds3), cnt2, src. split; [reflexivity|]. split; [exact Kl|]. split; [lia|].
  intros s l Hl. destruct (zget_in_range who2 s) as (w2 & Hw2); [rewrite (proj1 Rw2), <- Ls; eapply zget_bounds; eauto|].
  destruct (Gs s l w2 Hl Hw2) as (Lw2 & Gl). destruct (proj2 Rw2 s w2 Hw2) as [Nw2 Iw2].
  (* an entry of l *)
  assert (forall k t j, zget l k = Ok (t, j) -> exists w f u ur uf x i c, zget ps t = Ok (w, f, u, (ur, uf)) /\ zget w2 k = Ok (t, c) /\ zget u c = Ok x /\ zget w x = Ok (s, i) /\
      in_group f j x /\ in_group uf j c) as El.
  { intros k t j Hk. destruct (zget_in_range w2 k) as ([t' c] & Hc); [rewrite <- Lw2; eapply zget_bounds; eauto|].
    destruct (Gl k t' c Hc) as (q & uf' & Hq & Huf' & Gq). assert ((t', q) = (t, j)) as [= -> ->] by congruence.
    assert (goes_to uranks t c s) as Hg by (apply Iw2; eapply zget_In; eauto). destruct (Ug t c s Hg) as (w & f & u & ur & uf & x & i & Hp & Hx & Hwx).
    destruct (Gparts _ _ _ _ _ _ Hp) as [P1 P2]. assert (uf' = uf) as -> by congruence. destruct (Gps t _ Hp) as (d & k' & _ & _ & _ & _ & _ & _ & _ & _ & _ & _ & _ & U).
    exists w, f, u, ur, uf, x, i, c. repeat (split; [assumption|]). split; [apply (q_group _ _ _ _ _ U c x j Hx); exact Gq|exact Gq]. }
  assert (forall k k' t j, zget l k = Ok (t, j) -> zget l k' = Ok (t, j) -> k = k') as Nl.
  { intros k k' t j Hk Hk'. destruct (El k t j Hk) as (w & f & u & ur & uf & x & i & c & C1 & C2 & C3 & C4 & C5 & C6).
    destruct (El k' t j Hk') as (w' & f' & u' & ur' & uf' & x' & i' & c' & D1 & D2 & D3 & D4 & D5 & D6). rewrite C1 in D1. injection D1 as <- <- <- <- <-.
    destruct (Gps t _ C1) as (d & k0 & _ & _ & _ & _ & _ & _ & _ & _ & _ & _ & _ & U).
    pose proof (q_once _ _ _ _ _ U j c c' x x' s i i' C3 D3 C5 D5 C4 D4) as <-. eapply NoDup_zget; eauto. }
  split; [|split].
  - apply NoDup_zget_inv. intros k k' [t j]. apply Nl.
  - intros t j. split.
    + intros H. apply P_Map.In_zget in H as (k & Hk). destruct (El k t j Hk) as (w & f & u & ur & uf & x & i & c & C1 & C2 & C3 & C4 & C5 & C6).
      destruct (Gps t _ C1) as (d & k0 & _ & _ & _ & _ & _ & _ & _ & _ & _ & Gw & _). destruct (Gw x s i C4) as [G1 G2]. exists i. split; [exact G1|apply G2; exact C5].
    + intros (i & H1 & H2). destruct (At t) as (w & f & u & ur & uf & Hp); [exact (k_exist _ _ _ _ _ K s i t H1)|]. destruct (Gps t _ Hp) as (d & k0 & _ & _ & _ & _ & _ & _ & _ & _ & _ & Gw & Cw & U).
      destruct (Cw s i H1) as (x & Hx). destruct (Gw x s i Hx) as [_ G2]. destruct (q_kept _ _ _ _ _ U j x s i (proj2 (G2 j) H2) Hx) as (c & y & i' & Hc & Gy & Hy).
      destruct (Gparts _ _ _ _ _ _ Hp) as [P1 P2]. assert (goes_to uranks t c s) as Hg by (exists ur; split; [exact P1|exact (q_rank _ _ _ _ _ U c y s i' Hc Hy)]).
      apply Iw2 in Hg. apply P_Map.In_zget in Hg as (k & Hk). destruct (Gl k t c Hk) as (q & uf' & Hq & Huf' & Gq). assert (uf' = uf) as -> by congruence.
      apply (q_group _ _ _ _ _ U c y q Hc) in Gq. destruct (Gps t _ Hp) as (_ & _ & _ & _ & _ & _ & _ & _ & _ & Ff & _). pose proof (in_group_unique f q j y Ff Gq Gy) as ->. eapply zget_In; eauto.
  - intros k k' t j t' j' x y Hk Hk' Hx Hy. destruct (El k t j Hk) as (w & f & u & ur & uf & x0 & i & c & C1 & C2 & C3 & C4 & C5 & C6).
    destruct (El k' t' j' Hk') as (w' & f' & u' & ur' & uf' & x0' & i' & c' & D1 & D2 & D3 & D4 & D5 & D6).
    destruct (Gparts _ _ _ _ _ _ C1) as [P1 P2]. destruct (Gparts _ _ _ _ _ _ D1) as [P1' P2'].
    rewrite (Ord s w2 k k' t c t' c' uf uf' j j' x y Hw2 C2 D2 P2 C6 Hx P2' D6 Hy).
    assert (t = t' -> (c < c' <-> j < j')); [|intuition]. intros <-. rewrite C1 in D1. injection D1 as <- <- <- <- <-.
    destruct (Gps t _ C1) as (d & k0 & _ & _ & _ & _ & _ & _ & _ & _ & _ & _ & _ & U). pose proof (q_fan _ _ _ _ _ U) as Fu. split; intros Hc.
    + pose proof (group_le uf j j' c c' Fu C6 D6 ltac:(lia)). destruct (Z.eq_dec j j') as [<-|]; [|lia]. assert (k = k') as <- by eauto. assert (c = c') by congruence. lia.
    + destruct (Z.le_gt_cases c' c) as [G|]; [|lia]. pose proof (group_le uf j' j c' c Fu D6 C6 G). lia.
Qed.
End copies.
