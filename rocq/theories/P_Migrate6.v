From Verif Require Import Prelude M_Array M_Par M_Scan S_Scan M_Sort S_Sort M_Map S_Map M_Tags P_Tags M_Template M_Dist S_Dist M_Owners S_Owners P_Array P_Scan P_Map P_Map2 P_Fan P_Dist P_Dist2 P_Dist3 P_Dist5 P_Dist6 P_Link P_Owners M_Migrate S_Migrate P_Migrate4 P_Migrate5.
Local Open Scope Z_scope.

Section level.
Context (nranks : Z) (mode : parting) (d : Z) (e e' : dents) (src : list (list (Z * Z))).
Hypothesis Se : sound_level nranks e.
Hypothesis Lm : level_moved mode d e e' src.
Hypothesis Ls : zlen src = nranks.
Hypothesis Ex : sources_exist e src.
Hypothesis Pr : keeps_owners mode d = true -> forall s c r q o, copy_of src s c r q -> goes_to (de_ranks e) r q o -> exists y, copy_of src o y r q.

Lemma new_nents s n : zget (de_nents e') s = Ok n <-> exists l, zget src s = Ok l /\ n = zlen l.
Proof using Lm.
  clear Se Ls Ex Pr.
  rewrite (v_nents _ _ _ _ _ Lm). split.
  - intros H. apply zget_map_inv in H as (l & H & ->). eauto.
  - intros (l & H & ->). apply (zget_map_ok _ _ _ _ H).
Qed.
Lemma per_ent_copy {A} (x : list (list A)) w s a i : data_per_root (de_nents e') x w -> zget x s = Ok a -> 0 < w -> 0 <= i < zlen a -> exists r q, copy_of src s (i / w) r q.
Proof using Lm.
  clear Se Ls Ex Pr.
  intros [L H] Ha Hw Hi. destruct (zget_in_range (de_nents e') s) as (n & Hn); [rewrite <- L; eapply zget_bounds; eauto|]. rewrite (H s n a Hn Ha) in Hi. apply new_nents in Hn as (l & Hl & ->).
  destruct (zget_in_range l (i / w)) as ((r, q) & Hc); [split; [apply Z.div_pos; lia|apply Z.div_lt_upper_bound; lia]|]. exists r, q, l. auto.
Qed.
Lemma has_copy s i t : goes_to (de_ranks e') s i t -> exists r q, copy_of src s i r q.
Proof using Lm.
  clear Se Ls Ex Pr.
  intros (a & Ha & Hi). destruct (per_ent_copy (de_ranks e') 1 s a i (proj1 (v_sizes _ _ _ _ _ Lm)) Ha) as (r & q & H); [lia|eapply zget_bounds; eauto|]. rewrite Z.div_1_r in H. eauto.
Qed.
Lemma copy_nents s c r q : copy_of src s c r q -> exists n, zget (de_nents e') s = Ok n /\ 0 <= c < n.
Proof using Lm. clear Se Ls Ex Pr. intros (l & H1 & H2). exists (zlen l). split; [apply new_nents; eauto|eapply zget_bounds; eauto]. Qed.

Lemma owner_of_copies s c r q : copy_of src s c r q -> exists t x, copy_of src t x r q /\ forall s' c', copy_of src s' c' r q -> owner_is (de_ranks e') (de_idxs e') s' c' t x.
Proof using Se Lm Ex Pr.
  intros Hc. pose proof (v_owners _ _ _ _ _ Lm) as Ho. destruct (keeps_owners mode d) eqn:Ek.
  - destruct (Ex _ _ _ _ Hc) as (n & Hn & Hq). destruct (l_size _ _ Se) as [L Sz]. destruct (zget_in_range (de_ranks e) r) as (a & Ha); [rewrite L; eapply zget_bounds; eauto|].
    destruct (zget_in_range a q) as (o & Hao); [rewrite (Sz r n a Hn Ha); lia|]. assert (goes_to (de_ranks e) r q o) as Go by (exists a; auto).
    destruct (Ho r q o Go) as (x & H1 & [H2|[_ H2]]); [exists o, x; auto|]. destruct (Pr eq_refl _ _ _ _ _ Hc Go) as (y & Hy). exfalso. eapply H2; eauto.
  - destruct (Ho s c r q Hc) as (t & x & H1 & H2). exists t, x. split; [exact H1|]. intros s' c' H'. apply H2, H'.
Qed.
Lemma owner_copy s i t j : owner_is (de_ranks e') (de_idxs e') s i t j -> exists r q, copy_of src s i r q /\ copy_of src t j r q /\ forall s' c', copy_of src s' c' r q -> owner_is (de_ranks e') (de_idxs e') s' c' t j.
Proof using Se Lm Ex Pr.
  intros [H1 H2]. destruct (has_copy _ _ _ H1) as (r & q & Hc). destruct (owner_of_copies _ _ _ _ Hc) as (t' & x & H3 & H4). exists r, q. destruct (H4 _ _ Hc) as [H5 H6].
  pose proof (goes_to_fun _ _ _ _ _ H1 H5) as <-. pose proof (goes_to_fun _ _ _ _ _ H2 H6) as <-. auto.
Qed.
Lemma sound_level_new : sound_level nranks e'.
Proof using Se Lm Ls Ex Pr.
  pose proof (v_sizes _ _ _ _ _ Lm) as [[L1 Z1] [L2 Z2]]. pose proof (v_tags _ _ _ _ _ Lm) as F.
  assert (zlen (de_nents e') = nranks) as Ln by (rewrite (v_nents _ _ _ _ _ Lm), zlen_map; exact Ls).
  constructor.
  - exact Ln.
  - split; [lia|]. split; [lia|]. split; [|split].
    + intros s a b Ha Hb. destruct (zget_in_range (de_nents e') s) as (n & Hn); [rewrite <- L1; eapply zget_bounds; eauto|]. rewrite (Z1 s n a Hn Ha), (Z2 s n b Hn Hb). reflexivity.
    + intros r k Hk. apply new_nents in Hk as (l & _ & ->). apply zlen_nonneg.
    + intros s i t j H1 H2. destruct (owner_copy s i t j (conj H1 H2)) as (r & q & _ & H3 & _). eapply copy_nents; eauto.
  - intros s i t H1. destruct (has_copy _ _ _ H1) as (r & q & Hc). destruct (owner_of_copies _ _ _ _ Hc) as (t' & x & (l & H3 & _) & H4). destruct (H4 _ _ Hc) as [H5 _]. pose proof (goes_to_fun _ _ _ _ _ H1 H5) as <-.
    apply zget_bounds in H3. lia.
  - split; assumption.
  - pose proof (l_tags _ _ Se) as T. rewrite Forall_forall in T. apply Forall_forall. intros t' It'. apply P_Map.In_zget in It' as (k & Hk).
    assert (exists t, In t (de_tags e) /\ tag_moved src t t') as (t & It & M1 & M2 & M3 & M4).
    { clear T. apply zget_In in Hk. induction F as [|a b l l' R F IH]; [destruct Hk|]. destruct Hk as [<-|Hk]; [exists a; split; [left; reflexivity|exact R]|]. destruct (IH Hk) as (t & I1 & I2). exists t. split; [right; exact I1|exact I2]. }
    destruct (T t It) as (T1 & T2 & T3). split; [congruence|]. split; [lia|]. destruct M4 as [D1 D2]. split; [lia|]. intros r n x Hn Hx. apply new_nents in Hn as (l & Hl & ->). rewrite M3. apply (D2 r l x Hl Hx).
  - rewrite (tags_moved_names _ _ _ F). apply (l_names _ _ Se).
  - rewrite (Forall2_zlen _ _ _ F). apply (l_few _ _ Se).
  - destruct (l_global _ _ Se) as (t & It & N & Ty & Nc). clear - F It N Ty Nc. induction F as [|a b l l' (R1 & R2 & R3 & _) F IH]; [destruct It|]. destruct It as [->|It].
    + exists b. split; [left; reflexivity|]. repeat split; congruence.
    + destruct (IH It) as (t' & I1 & I2). exists t'. split; [right; exact I1|exact I2].
Qed.
Lemma level_agrees_new : level_agrees e'.
Proof using Se Lm Ex Pr.
  intros s i t j H. destruct (owner_copy _ _ _ _ H) as (r & q & H1 & H2 & H3). split; [apply H3, H2|].
  intros g x y Ig Hx Hy. pose proof (v_tags _ _ _ _ _ Lm) as F. pose proof (l_tags _ _ Se) as T. rewrite Forall_forall in T.
  assert (exists g0, In g0 (de_tags e) /\ tag_moved src g0 g) as (g0 & Ig0 & _ & _ & M3 & D1 & D2).
  { clear - F Ig. induction F as [|a b l l' R F IH]; [destruct Ig|]. destruct Ig as [<-|Hk]; [exists a; split; [left; reflexivity|exact R]|]. destruct (IH Hk) as (t & I1 & I2). exists t. split; [right; exact I1|exact I2]. }
  destruct H1 as (l & Hl & Hi). destruct H2 as (l2 & Hl2 & Hj). destruct (T g0 Ig0) as (_ & _ & L0 & _). destruct (Ex s i r q) as (n & Hn & _); [exists l; auto|]. destruct (zget_in_range (dt_data g0) r) as (v & Hv); [rewrite L0; eapply zget_bounds; eauto|].
  pose proof (proj2 (D2 s l x Hl Hx) i r q v Hi Hv) as B1. pose proof (proj2 (D2 t l2 y Hl2 Hy) j r q v Hj Hv) as B2. rewrite M3. intros c Hc. destruct (B1 c Hc) as (u & U1 & U2). destruct (B2 c Hc) as (u' & U1' & U2'). exists u. split; congruence.
Qed.
End level.

Section sides.
Context (nranks : Z) (mode : parting) (d deg : Z) (high low high' low' : dents) (hsrc lsrc : list (list (Z * Z))).
Hypothesis Hdeg : 0 < deg.
Hypothesis Sh : sound_level nranks high.
Hypothesis Sl : sound_level nranks low.
Hypothesis Sd : sound_sides deg high low.
Hypothesis Mh : level_moved mode (d + 1) high high' hsrc.
Hypothesis Ml : level_moved mode d low low' lsrc.
Hypothesis Lh : zlen hsrc = nranks.
Hypothesis Lo : lows_of deg high low hsrc lsrc.
Hypothesis Mv : sides_moved deg high low high' hsrc lsrc.
Hypothesis Eh : sources_exist high hsrc.
Hypothesis Ph : keeps_owners mode (d + 1) = true -> forall s c r q o, copy_of hsrc s c r q -> goes_to (de_ranks high) r q o -> exists y, copy_of hsrc o y r q.
Hypothesis Pl : keeps_owners mode d = true -> forall s c r q o, copy_of lsrc s c r q -> goes_to (de_ranks low) r q o -> exists y, copy_of lsrc o y r q.

Lemma lows_exist : sources_exist low lsrc.
Proof using Sl Lo.
  intros s c t j (l & Hl & Hc). destruct Lo as [_ G]. destruct (G s l Hl) as (_ & G2 & _). apply zget_In in Hc. apply G2 in Hc as (c' & r & q & k & _ & _ & x & _ & O1 & O2).
  destruct (l_owners _ _ Sl) as (_ & _ & _ & _ & A). apply (A r x t j O1 O2).
Qed.
Lemma side_exists s c r q k : copy_of hsrc s c r q -> 0 <= k < deg -> exists t j, side_owner deg high low r q k t j.
Proof using Hdeg Sl Sd Eh.
  clear Sh Mh Ml Lh Lo Mv Ph Pl.
  intros Hc Hk. destruct (Eh _ _ _ _ Hc) as (n & Hn & Hq). destruct (d_size _ _ _ Sd) as [L Sz]. destruct (zget_in_range (de_down high) r) as (a & Ha); [rewrite L; eapply zget_bounds; eauto|].
  destruct (zget_in_range a (q * deg + k)) as (x & Hx); [rewrite (Sz r n a Hn Ha); nia|]. assert (goes_to (de_down high) r (q * deg + k) x) as G by (exists a; auto).
  destruct (d_range _ _ _ Sd r _ x G) as (n' & Hn' & Bx). destruct (l_size _ _ Sl) as [L2 Sz2]. destruct (zget_in_range (de_ranks low) r) as (b & Hb); [rewrite L2; eapply zget_bounds; eauto|].
  destruct (zget_in_range b x) as (t & Ht); [rewrite (Sz2 r n' b Hn' Hb); lia|]. destruct (l_owners _ _ Sl) as (A1 & A2 & A3 & _). destruct (zget_in_range (de_idxs low) r) as (b' & Hb'); [rewrite A1; eapply zget_bounds; eauto|].
  destruct (zget_in_range b' x) as (j & Hj); [rewrite (A3 r b b' Hb Hb'); eapply zget_bounds; eauto|]. exists t, j. split; [exact Hk|]. exists x. split; [exact G|]. split; [exists b|exists b']; auto.
Qed.
Lemma sound_sides_new : sound_sides deg high' low'.
Proof.
  destruct Mv as (M1 & M2 & M3). constructor.
  - exact M1.
  - intros s i x (a & Ha & Hi). destruct (per_ent_copy mode (d + 1) high high' hsrc Mh (de_down high') deg s a i M1 Ha Hdeg) as (r & q & Hc); [eapply zget_bounds; eauto|].
    destruct (side_exists s (i / deg) r q (i mod deg) Hc) as (t & j & So); [apply Z.mod_pos_bound; lia|]. destruct (M2 _ _ _ _ _ _ _ Hc So) as (x' & G & Hx). replace (i / deg * deg + i mod deg) with i in G by (rewrite Z.mul_comm; apply Z.div_mod; lia).
    assert (x' = x) as -> by (destruct G as (a' & G1 & G2); congruence). eapply (copy_nents mode d low low' lsrc Ml); eauto.
  - destruct (de_codes high) as [x|], (de_codes high') as [x'|]; try tauto. destruct M3 as [D1 D2]. split; [rewrite (v_nents _ _ _ _ _ Mh), zlen_map; exact D1|]. intros r n y Hn Hy. apply (new_nents mode (d + 1) high high' hsrc Mh) in Hn as (l & Hl & ->). apply (D2 r l y Hl Hy).
Qed.
Lemma new_side_owner s i r q k t j : copy_of hsrc s i r q -> side_owner deg high' low' s i k t j -> exists t0 j0, side_owner deg high low r q k t0 j0 /\ exists x, copy_of lsrc s x t0 j0 /\ owner_is (de_ranks low') (de_idxs low') s x t j.
Proof.
  intros Hc (Hk & x & G & O). destruct (side_exists s i r q k Hc Hk) as (t0 & j0 & So). exists t0, j0. split; [exact So|]. destruct Mv as (_ & M2 & _). destruct (M2 _ _ _ _ _ _ _ Hc So) as (x' & G' & Hx). exists x'. split; [exact Hx|].
  pose proof (goes_to_fun _ _ _ _ _ G G') as <-. exact O.
Qed.
Lemma side_owner_fun r q k t j t' j' : side_owner deg high low r q k t j -> side_owner deg high low r q k t' j' -> t' = t /\ j' = j.
Proof. intros (_ & x & G & O1 & O2) (_ & x' & G' & O1' & O2'). pose proof (goes_to_fun _ _ _ _ _ G G') as <-. split; eapply goes_to_fun; eauto. Qed.
Lemma sides_agree_half s i t j r q k r' q' : copy_of hsrc s i r q -> copy_of hsrc t j r q -> side_owner deg high' low' s i k r' q' -> side_owner deg high' low' t j k r' q'.
Proof.
  intros C1 C2 H. pose proof (proj1 H) as Hk. destruct (new_side_owner _ _ _ _ _ _ _ C1 H) as (t0 & j0 & So & x & Hx & O). split; [exact Hk|]. destruct Mv as (_ & M2 & _). destruct (M2 _ _ _ _ _ _ _ C2 So) as (y & Gy & Hy). exists y. split; [exact Gy|].
  destruct (owner_copy nranks mode d low low' lsrc Sl Ml lows_exist Pl s x r' q' O) as (r1 & q1 & K1 & _ & K3). destruct (copy_fun _ _ _ _ _ _ _ Hx K1) as [-> ->]. apply K3, Hy.
Qed.
Lemma sides_agree_new : sides_agree deg high' low'.
Proof.
  intros s i t j k r' q' H. destruct (owner_copy nranks mode (d + 1) high high' hsrc Sh Mh Eh Ph s i t j H) as (r & q & C1 & C2 & _). split; eapply sides_agree_half; eauto.
Qed.
End sides.

Lemma migrated_usable nranks mode m m' srcs e src : sound nranks m -> migrated mode m m' srcs -> zget (dm_ents m) (dm_dim m) = Ok e -> zget srcs (dm_dim m) = Ok src ->
  zlen src = nranks -> sources_exist e src -> owners_present mode m srcs -> sound nranks m' /\ agrees m'.
Proof.
  intros [Sdim Srk Slv Sle Ssd] [Gf Gd Gs Gl Glev Gsid] He Hsrc Ls Ex Pr.
  assert (forall d e', zget (dm_ents m') d = Ok e' -> exists e0 src0, zget (dm_ents m) d = Ok e0 /\ zget srcs d = Ok src0 /\ level_moved mode d e0 e' src0) as Lev.
  { intros d e' H. pose proof (zget_bounds _ _ _ H) as B. destruct (zget_in_range (dm_ents m) d ltac:(lia)) as (e0 & H0). destruct (zget_in_range srcs d ltac:(lia)) as (s0 & Hs0). exists e0, s0. eauto. }
  assert (forall d s0, zget srcs d = Ok s0 -> zlen s0 = nranks) as Ln.
  { assert (forall n d s0, Z.of_nat n = dm_dim m - d -> zget srcs d = Ok s0 -> zlen s0 = nranks) as I.
    { induction n as [|n IH]; intros d s0 En H.
      - assert (d = dm_dim m) as -> by lia. congruence.
      - pose proof (zget_bounds _ _ _ H) as B. destruct (zget_in_range srcs (d + 1) ltac:(lia)) as (h & Hh). destruct (zget_in_range (dm_ents m) (d + 1) ltac:(lia)) as (e1 & H1). destruct (zget_in_range (dm_ents m) d ltac:(lia)) as (e0 & H0). destruct (zget_in_range (dm_ents m') (d + 1) ltac:(lia)) as (e2 & H2).
        destruct (Gsid d e1 e0 e2 h s0 H1 H0 H2 Hh H) as [[L _] _]. rewrite L. apply (IH (d + 1)); [lia|exact Hh]. }
    intros d s0 H. pose proof (zget_bounds _ _ _ H) as B. apply (I (Z.to_nat (dm_dim m - d)) d); [lia|exact H]. }
  assert (forall d e0 s0, zget (dm_ents m) d = Ok e0 -> zget srcs d = Ok s0 -> sources_exist e0 s0) as Exs.
  { intros d e0 s0 H0 Hs0. pose proof (zget_bounds _ _ _ Hs0) as B. destruct (Z.eq_dec d (dm_dim m)) as [->|Nd]; [assert (e0 = e) as -> by congruence; assert (s0 = src) as -> by congruence; exact Ex|].
    destruct (zget_in_range srcs (d + 1) ltac:(lia)) as (h & Hh). destruct (zget_in_range (dm_ents m) (d + 1) ltac:(lia)) as (e1 & H1). destruct (zget_in_range (dm_ents m') (d + 1) ltac:(lia)) as (e2 & H2).
    destruct (Gsid d e1 e0 e2 h s0 H1 H0 H2 Hh Hs0) as [Lo _]. eapply lows_exist; eauto. }
  split; [constructor|split].
  - rewrite Gd. exact Sdim.
  - exact Srk.
  - rewrite Gl, Gd. reflexivity.
  - intros d e' H. destruct (Lev d e' H) as (e0 & s0 & H0 & Hs0 & Lm). eapply sound_level_new; eauto.
  - intros d high' low' H1 H2. destruct (Lev _ _ H1) as (e1 & s1 & E1 & S1 & L1). destruct (Lev _ _ H2) as (e0 & s0 & E0 & S0 & L0). rewrite Gf. destruct (Gsid d e1 e0 high' s1 s0 E1 E0 H1 S1 S0) as [Lo Mv].
    eapply sound_sides_new; eauto. apply degree_pos. apply zget_bounds in H1, H2. lia.
  - intros d e' H. destruct (Lev d e' H) as (e0 & s0 & H0 & Hs0 & Lm). eapply level_agrees_new; eauto.
  - intros d high' low' H1 H2. destruct (Lev _ _ H1) as (e1 & s1 & E1 & S1 & L1). destruct (Lev _ _ H2) as (e0 & s0 & E0 & S0 & L0). rewrite Gf. destruct (Gsid d e1 e0 high' s1 s0 E1 E0 H1 S1 S0) as [Lo Mv].
    eapply sides_agree_new with (nranks := nranks) (mode := mode) (d := d) (high := e1) (low := e0) (hsrc := s1) (lsrc := s0); eauto; apply degree_pos; apply zget_bounds in H1, H2; lia.
Qed.

Lemma migrate_moves inv nranks m mode ranks idxs e : inverter inv -> sound nranks m -> zget (dm_ents m) (dm_dim m) = Ok e ->
  ranks_exist ranks -> addressed ranks idxs (de_nents e) ->
  exists ds m' srcs src, make_dist inv ranks idxs (de_nents e) = Ok ds /\ migrate_mesh inv m ds mode = Ok m' /\ migrated mode m m' srcs /\
  zget srcs (dm_dim m) = Ok src /\ map (map fst) src = ranks /\ map (map snd) src = idxs /\
  (owners_present mode m srcs -> sound nranks m' /\ agrees m').
Proof.
  intros Hinv Sm He Rk A. pose proof (l_nranks _ _ (s_level _ _ Sm _ _ He)) as N. pose proof (s_ranks _ _ Sm) as B. pose proof (proj1 (proj2 A)) as L.
  destruct (make_dist_ok inv ranks idxs (de_nents e) Hinv Rk ltac:(lia) A) as (ds1 & ds & _ & E & _).
  destruct (migrate_ok inv nranks m mode ranks idxs e ds Hinv Sm He Rk A E) as (m' & srcs & E1 & E2 & M). destruct (pair_up_ok ranks idxs (proj1 A) (proj1 (proj2 (proj2 A)))) as [P1 P2].
  exists ds, m', srcs, (pair_up ranks idxs). repeat (split; [assumption|]). intros Pr. eapply migrated_usable; eauto.
  - assert (zlen (map (map fst) (pair_up ranks idxs)) = zlen ranks) as Z by (rewrite P1; reflexivity). rewrite zlen_map in Z. lia.
  - intros s c r q Hc. pose proof (proj1 (copy_ranks _ _ _ _ _) Hc) as [C1 C2]. rewrite P1 in C1. rewrite P2 in C2. destruct A as (_ & _ & _ & _ & A). eauto.
Qed.
Lemma migrate_elem_based inv nranks m ranks idxs e : inverter inv -> sound nranks m -> zget (dm_ents m) (dm_dim m) = Ok e ->
  ranks_exist ranks -> addressed ranks idxs (de_nents e) ->
  exists ds m', make_dist inv ranks idxs (de_nents e) = Ok ds /\ migrate_mesh inv m ds OMEGA_H_ELEM_BASED = Ok m' /\ sound nranks m' /\ agrees m'.
Proof.
  intros Hinv Sm He Rk A. destruct (migrate_moves inv nranks m OMEGA_H_ELEM_BASED ranks idxs e Hinv Sm He Rk A) as (ds & m' & srcs & src & E1 & E2 & _ & _ & _ & _ & H). exists ds, m'. split; [exact E1|]. split; [exact E2|]. apply H. intros d e0 src0 s c r q o Hk. discriminate.
Qed.
