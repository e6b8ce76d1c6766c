(** Proofs about ghost_mesh, partition_by_verts and partition_by_elems. *)
From Verif Require Import Prelude M_Array M_Par M_Scan M_Sort M_Map M_Tags M_Template M_Dist M_Owners M_Migrate M_Ghost S_Map S_Dist S_Owners S_Migrate S_Ghost.
From Verif Require Import P_Array P_Map P_Map2 P_Fan P_Dist P_Dist2 P_Dist3 P_Dist5 P_Owners P_Link P_Migrate2 P_Migrate4 P_Migrate5 P_Migrate6 P_Ghost2 P_Ghost3 P_Ghost4.
Local Open Scope Z_scope.

(** ** what migration keeps *)
Section moved.
Context (nranks : Z) (mode : parting) (m m' : dmesh) (srcs : list (list (list (Z * Z)))).
Hypothesis Sm : sound nranks m.
Hypothesis Mv : migrated mode m m' srcs.

Lemma moved_covered : covered m'.
Proof using Sm Mv.
  intros d high' low' s n l Hd Hh Hl Hn B. destruct Mv as [Gf Gd Gs Gl Glev Gsid]. pose proof (s_levels _ _ Sm) as Ls. pose proof (zget_bounds _ _ _ Hh) as B1.
  destruct (zget_in_range (dm_ents m) (d + 1) ltac:(lia)) as (high & Hh0). destruct (zget_in_range (dm_ents m) d ltac:(lia)) as (low & Hl0). destruct (zget_in_range srcs (d + 1) ltac:(lia)) as (hsrc & Hhs). destruct (zget_in_range srcs d ltac:(lia)) as (lsrc & Hls).
  destruct (Gsid d high low high' hsrc lsrc Hh0 Hl0 Hh Hhs Hls) as [[_ Lo] (_ & M2 & _)]. pose proof (v_nents _ _ _ _ _ (Glev d low low' lsrc Hl0 Hl Hls)) as En. rewrite En in Hn. apply zget_map_inv in Hn as (w & Hw & ->).
  destruct (zget_in_range w l B) as ([t j] & Hc). destruct (Lo s w Hw) as (Nd & Il & _). destruct (proj1 (Il t j) (zget_In _ _ _ Hc)) as (c & r & q & k & Hcp & So). destruct (M2 s c r q k t j Hcp So) as (x & Hg & (w' & Hw' & Hx)). assert (w' = w) as -> by congruence.
  assert (x = l) as -> by (eapply (NoDup_zget w); eauto). rewrite Gf. exists c, k. split; [exact (proj1 So)|exact Hg].
Qed.

Hypothesis Am : agrees m.
(** every source of a copy owns itself, if the elements' do *)
Lemma sources_own elems src : zget (dm_ents m) (dm_dim m) = Ok elems -> zget srcs (dm_dim m) = Ok src -> (forall s c t j, copy_of src s c t j -> is_owner elems t j) ->
  forall d e sr s c t j, zget (dm_ents m) d = Ok e -> zget srcs d = Ok sr -> copy_of sr s c t j -> owner_is (de_ranks e) (de_idxs e) t j t j.
Proof using Sm Mv Am.
  intros He Hs Ho d e sr s c t j Hed Hsr Hc. destruct Mv as [Gf Gd Gs Gl Glev Gsid]. pose proof (zget_bounds _ _ _ Hsr) as B. pose proof (s_levels _ _ Sm) as Ls. destruct (Z.eq_dec d (dm_dim m)) as [->|Ne].
  - assert (e = elems) as -> by congruence. assert (sr = src) as -> by congruence. destruct (Ho s c t j Hc) as (u & x & O). apply (proj1 Am _ _ He u x t j O).
  - destruct (zget_in_range (dm_ents m) (d + 1) ltac:(lia)) as (high & Hh). destruct (zget_in_range (dm_ents m') (d + 1) ltac:(lia)) as (high' & Hh'). destruct (zget_in_range srcs (d + 1) ltac:(lia)) as (hsrc & Hhs).
    destruct (Gsid d high e high' hsrc sr Hh Hed Hh' Hhs Hsr) as [[_ Lo] _]. destruct Hc as (w & Hw & Hc). destruct (Lo s w Hw) as (_ & Il & _). destruct (proj1 (Il t j) (zget_In _ _ _ Hc)) as (c' & r & q & k & _ & _ & l & _ & O). apply (proj1 Am _ _ Hed r l t j O).
Qed.

(** a rank that keeps its elements keeps everything *)
Lemma keeps_all elems src : covered m -> zget (dm_ents m) (dm_dim m) = Ok elems -> zget srcs (dm_dim m) = Ok src -> (forall s t j, is_on elems s t j -> exists c, copy_of src s c t j) ->
  forall n d e sr s x t j, Z.of_nat n = dm_dim m - d -> zget (dm_ents m) d = Ok e -> zget srcs d = Ok sr -> owner_is (de_ranks e) (de_idxs e) s x t j -> exists c, copy_of sr s c t j.
Proof using Sm Mv Am.
  intros Cm He Hs Ho. destruct Mv as [Gf Gd Gs Gl Glev Gsid]. pose proof (s_levels _ _ Sm) as Ls. induction n as [|n IH]; intros d e sr s x t j En Hed Hsr O.
  - assert (d = dm_dim m) as -> by lia. assert (e = elems) as -> by congruence. assert (sr = src) as -> by congruence. apply Ho. exists x. exact O.
  - pose proof (zget_bounds _ _ _ Hsr) as B. destruct (zget_in_range (dm_ents m) (d + 1) ltac:(lia)) as (high & Hh). destruct (zget_in_range (dm_ents m') (d + 1) ltac:(lia)) as (high' & Hh'). destruct (zget_in_range srcs (d + 1) ltac:(lia)) as (hsrc & Hhs).
    destruct (Gsid d high e high' hsrc sr Hh Hed Hh' Hhs Hsr) as [[L0 Lo] _]. destruct (owner_range nranks e s x t j (s_level _ _ Sm _ _ Hed) O) as (ne & Hne & Bx). destruct (Cm d high e s ne x ltac:(lia) Hh Hed Hne Bx) as (y & k & Hk & Hg).
    pose proof Hg as (a & Ha & Hak). destruct (d_size _ _ _ (s_sides _ _ Sm _ _ _ Hh Hed)) as [L1 G1]. destruct (zget_in_range (de_nents high) s) as (nh & Hnh); [rewrite <- L1; eapply zget_bounds; eauto|]. pose proof (zget_bounds _ _ _ Hak) as By. rewrite (G1 s nh a Hnh Ha) in By.
    destruct (owner_exists nranks high s nh y (s_level _ _ Sm _ _ Hh) Hnh ltac:(nia)) as (t' & j' & O'). destruct (IH (d + 1) high hsrc s y t' j' ltac:(lia) Hh Hhs O') as (c & Hc).
    assert (side_owner (element_degree (dm_family m) (d + 1) d) high e t' j' k t j) as So. { apply (proj2 Am _ _ _ Hh Hed s y t' j' k t j O'). split; [exact Hk|]. exists x. auto. }
    pose proof Hc as (w0 & Hw0 & _). destruct (zget_in_range sr s) as (w & Hw); [rewrite L0; eapply zget_bounds; eauto|]. destruct (Lo s w Hw) as (_ & Il & _). pose proof (proj2 (Il t j) ltac:(eauto 6)) as I. apply In_zget in I as (c' & Hc'). exists c', w. auto.
Qed.

(** the vertices a rank gets are those of its elements *)
Lemma vertices_of : forall n d sr s r q v0 e verts, Z.of_nat n = d -> d <= dm_dim m -> zget (dm_ents m) d = Ok e -> verts_of m = Ok verts -> zget srcs d = Ok sr -> zget srcs 0 = Ok v0 ->
  (forall s' c t j, copy_of sr s' c t j -> owner_is (de_ranks e) (de_idxs e) t j t j) ->
  ((exists c, copy_of v0 s c r q) <-> exists c t j v, copy_of sr s c t j /\ bounds m n t j v /\ owner_is (de_ranks verts) (de_idxs verts) t v r q).
Proof using Sm Mv Am.
  destruct Mv as [Gf Gd Gs Gl Glev Gsid]. pose proof (s_levels _ _ Sm) as Ls. induction n as [|n IH]; intros d sr s r q v0 e verts En Hd Hed Hv Hsr H0 Self.
  - change (Z.of_nat 0) with 0 in En. subst d. unfold verts_of in Hv. change VERT with 0 in Hv. assert (e = verts) as -> by congruence. assert (v0 = sr) as -> by congruence. cbn [bounds]. split.
    + intros (c & Hc). exists c, r, q, q. split; [exact Hc|]. split; [reflexivity|]. eapply Self; eauto.
    + intros (c & t & j & v & Hc & -> & O). pose proof (Self _ _ _ _ Hc) as O'. destruct (owner_fun _ _ _ _ _ _ _ _ O' O) as [-> ->]. eauto.
  - pose (l := d - 1). destruct (zget_in_range (dm_ents m) l ltac:(lia)) as (low & Hlow). destruct (zget_in_range srcs l ltac:(lia)) as (lsrc & Hls). destruct (zget_in_range (dm_ents m') (l + 1) ltac:(lia)) as (high' & Hh'). assert (d = l + 1) as Ed by lia. rewrite Ed in Hed, Hsr.
    destruct (Gsid l e low high' sr lsrc Hed Hlow Hh' Hsr Hls) as [[L0 Lo] _].
    rewrite (IH l lsrc s r q v0 low verts ltac:(lia) ltac:(lia) Hlow Hv Hls H0).
    2:{ intros s' c t j (w & Hw & Hc). destruct (Lo s' w Hw) as (_ & Il & _). destruct (proj1 (Il t j) (zget_In _ _ _ Hc)) as (c' & r' & q' & k & _ & _ & x & _ & O). apply (proj1 Am _ _ Hlow r' x t j O). }
    assert (Z.of_nat (S n) = l + 1) as E1 by lia. assert (Z.of_nat n = l) as E2 by lia. cbn [bounds]. rewrite E1, E2. split.
    + intros (c & t & j & v & (w & Hw & Hc) & Hb & Ov). destruct (Lo s w Hw) as (_ & Il & _). destruct (proj1 (Il t j) (zget_In _ _ _ Hc)) as (c' & r' & q' & k & Hc' & Hk & x & Hg & O).
      destruct (proj1 Am _ _ Hlow r' x t j O) as [O' _]. rewrite <- E2 in Hlow. destruct (bounds_agree nranks m Sm Am n low t j r' x t j ltac:(lia) Hlow O' O verts v r q Hv Hb Ov) as (v' & Hb' & Ov').
      exists c', r', q', v'. split; [exact Hc'|]. split; [|exact Ov']. exists e, k, x. auto.
    + intros (c & t & j & v & Hc & (e' & k & x & He' & Hk & Hg & Hb) & Ov). assert (e' = e) as -> by congruence. destruct (d_range _ _ _ (s_sides _ _ Sm _ _ _ Hed Hlow) t _ x Hg) as (nx & Hnx & Bx). destruct (owner_exists nranks low t nx x (s_level _ _ Sm _ _ Hlow) Hnx Bx) as (t' & j' & O).
      destruct (proj1 Am _ _ Hlow t x t' j' O) as [O' _]. assert (zget (dm_ents m) (Z.of_nat n) = Ok low) as Hlow' by (rewrite E2; exact Hlow). destruct (bounds_agree nranks m Sm Am n low t x t' j' t' j' ltac:(lia) Hlow' O O' verts v r q Hv Hb Ov) as (v' & Hb' & Ov').
      pose proof Hc as (w0 & Hw0 & _). destruct (zget_in_range lsrc s) as (w & Hw); [rewrite L0; eapply zget_bounds; eauto|]. destruct (Lo s w Hw) as (_ & Il & _).
      assert (In (t', j') w) as I. { apply Il. exists c, t, j, k. split; [exact Hc|]. split; [exact Hk|]. exists x. auto. }
      apply In_zget in I as (c' & Hc'). exists c', t', j', v'. split; [exists w; auto|]. auto.
Qed.
End moved.

Section ghost.
Context (inv : Z -> list Z -> Z -> res (list Z * list Z)) (nranks : Z) (m : dmesh) (elems verts : dents) (a : asked).
Hypothesis Hinv : inverter inv.
Hypothesis Sm : sound nranks m.
Hypothesis Am : agrees m.
Hypothesis Cm : covered m.
Hypothesis Hv : verts_of m = Ok verts.
Hypothesis He : elems_of m = Ok elems.
Hypothesis Wa : answered m elems verts a.

Lemma within_range s n t j : within m elems s n t j -> 0 <= s < zlen (de_nents elems).
Proof using Sm He. intros H. apply within_rank in H as (x & Hx). rewrite <- (proj1 (l_size _ _ (s_level _ _ Sm _ _ He))). eapply zget_bounds; eauto. Qed.

Lemma layer_up g vd cv vsrc n : around_graph nranks m elems verts g -> link vd cv (map (map fst) vsrc) (map (map snd) vsrc) (de_nents verts) ->
  (forall s r q, (exists c, copy_of vsrc s c r q) <-> exists t j, within m elems s n t j /\ has_vertex m t j r q) ->
  exists ed ce esrc, close_up inv m g vd = Ok ed /\ link ed ce (map (map fst) esrc) (map (map snd) esrc) (de_nents elems) /\ has_exactly elems esrc (fun s => within m elems s (S n)).
Proof using Hinv Sm Am Hv He.
  intros Hg K Vs. destruct (close_up_ok inv nranks m elems verts Hinv Sm Hv He g vd cv vsrc Hg K) as (ed & ce & esrc & E & Ke & X). exists ed, ce, esrc. split; [exact E|]. split; [exact Ke|]. revert X. apply has_exactly_iff. intros s t j. cbn [within]. split.
  - intros (c & r & q & Hc & Ar). apply (around_vertex nranks m Sm Am elems r q t j He) in Ar as [A1 A2]. destruct (proj1 (Vs s r q) ltac:(eauto)) as (t' & j' & W & Hh). exists t', j'. split; [exact W|]. split; [exact A1|]. exists r, q. auto.
  - intros (t' & j' & W & Ow & r & q & H1 & H2). destruct (proj2 (Vs s r q) ltac:(eauto)) as (c & Hc). exists c, r, q. split; [exact Hc|]. apply (around_vertex nranks m Sm Am elems r q t j He). auto.
Qed.

Lemma add_layers_ok g ur ui k : element_degree (dm_family m) (dm_dim m) 0 = dm_dim m + 1 -> around_graph nranks m elems verts g -> uses_of m elems verts a ur ui ->
  forall n ed ce esrc, link ed ce (map (map fst) esrc) (map (map snd) esrc) (de_nents elems) -> has_exactly elems esrc (fun s => within m elems s n) ->
  exists ed' ce' esrc', add_layers inv m g (ur, ui) k ed = Ok ed' /\ link ed' ce' (map (map fst) esrc') (map (map snd) esrc') (de_nents elems) /\ has_exactly elems esrc' (fun s => within m elems s (n + k)).
Proof using Hinv Sm Am Hv He Wa.
  intros Edeg Hg Hu. induction k as [|k IH]; intros n ed ce esrc K X.
  - exists ed, ce, esrc. split; [reflexivity|]. split; [exact K|]. rewrite Nat.add_0_r. exact X.
  - cbn [add_layers]. destruct (close_down_ok inv nranks m elems verts a Hinv Sm Hv He Wa ur ui ed ce esrc Edeg Hu K) as (vd & cv & vsrc & Ed & Kv & Vs). rewrite Ed. cbn [bind].
    destruct (layer_up g vd cv vsrc n Hg Kv) as (ed1 & ce1 & esrc1 & E1 & K1 & X1).
    { intros s r q. rewrite Vs. pose proof (has_exactly_copy elems esrc _ X (fun s t j => within_range s n t j)) as C. split; [intros (c & t & j & H1 & H2); exists t, j; split; [apply C; eauto|exact H2]|intros (t & j & W & Hh); apply C in W as (c & Hc); eauto 6]. }
    rewrite E1. cbn [bind]. destruct (IH (S n) ed1 ce1 esrc1 K1 X1) as (ed' & ce' & esrc' & E2 & K2 & X2). exists ed', ce', esrc'. split; [exact E2|]. split; [exact K2|]. replace (n + S k)%nat with (S n + k)%nat by lia. exact X2.
Qed.

(** all elements present on a rank stay within one step, as they have vertices *)
Lemma has_some_vertex s x t j : owner_is (de_ranks elems) (de_idxs elems) s x t j -> exists r q, has_vertex m t j r q.
Proof using Sm Am Hv He Wa.
  intros O. destruct (owner_range nranks elems s x t j (s_level _ _ Sm _ _ He) O) as (n & Hn & B). pose proof (vert_degree_pos nranks m Sm) as P. destruct (w_size _ _ _ _ Wa) as [L G]. destruct (zget_in_range (elems2verts a) s) as (y & Hy); [rewrite L; eapply zget_bounds; eauto|].
  destruct (zget_in_range y (x * element_degree (dm_family m) (dm_dim m) 0 + 0)) as (v & Hvx); [rewrite (G s n y Hn Hy); nia|]. assert (bounds m (Z.to_nat (dm_dim m)) s x v) as Hb. { apply (w_verts _ _ _ _ Wa s n x v Hn B). exists 0. split; [lia|]. exists y. auto. }
  pose proof (s_dim _ _ Sm) as D. destruct (bounds_range nranks m Sm (Z.to_nat (dm_dim m)) s x v) as (v' & n' & Hv' & Hn' & Bv); [lia|rewrite Z2Nat.id by lia; exists elems, n; auto|exact Hb|]. assert (v' = verts) as -> by congruence.
  destruct (owner_exists nranks verts s n' v (s_level _ _ Sm _ _ Hv) Hn' Bv) as (r & q & Ov). exists r, q. apply (has_vertex_agree nranks m Sm Am elems s x t j r q He O). exists verts, v. auto.
Qed.
Lemma within_more s n t j : within m elems s n t j -> within m elems s (S n) t j.
Proof using Sm Am Hv He Wa.
  intros W. pose proof (within_owner _ _ _ _ _ _ W) as (s' & x & O). destruct (has_some_vertex s' x t j O) as (r & q & Hh). exists t, j. split; [exact W|]. split; [exists s', x; exact O|]. exists r, q. auto.
Qed.
Lemma within_on s n t j : is_on elems s t j -> within m elems s n t j.
Proof using Sm Am Hv He Wa. intros H. induction n as [|n IH]; [exact H|apply within_more, IH]. Qed.

Lemma migrate_exactly mode ed ce esrc P : link ed ce (map (map fst) esrc) (map (map snd) esrc) (de_nents elems) -> has_exactly elems esrc P ->
  exists m' srcs, migrate_mesh inv m ed mode = Ok m' /\ zget srcs (dm_dim m) = Ok esrc /\ migrated mode m m' srcs /\ covered m' /\ (owners_present mode m srcs -> sound nranks m' /\ agrees m').
Proof using Hinv Sm He.
  intros K [L X]. destruct (migrate_link inv nranks m mode Hinv Sm ed ce esrc elems He K) as (m' & srcs & E & Hs & M). exists m', srcs. split; [exact E|]. split; [exact Hs|]. split; [exact M|]. split; [eapply moved_covered; eauto|].
  intros Op. apply (migrated_usable nranks mode m m' srcs elems esrc Sm M He Hs); [rewrite L; exact (l_nranks _ _ (s_level _ _ Sm _ _ He))| |exact Op].
  intros s c r q Hc. exact (copy_range elems ed ce esrc K s c r q Hc).
Qed.

Lemma ghost_ok have want : 0 <= have < want -> want = have + 1 \/ dm_family m = OMEGA_H_SIMPLEX ->
  exists m' srcs src, ghost_mesh inv m a have want = Ok m' /\ migrated OMEGA_H_GHOSTED m m' srcs /\ zget srcs (dm_dim m) = Ok src /\
  has_exactly elems src (fun s => within m elems s (Z.to_nat (want - have))) /\ owners_present OMEGA_H_GHOSTED m srcs /\ sound nranks m' /\ agrees m' /\ covered m'.
Proof using Hinv Sm Am Cm Hv He Wa.
  intros Hw Hf. pose proof (s_level _ _ Sm _ _ Hv) as Sv. pose proof (l_nranks _ _ Sv) as Nv. pose proof (s_ranks _ _ Sm) as Br. unfold ghost_mesh. destruct (Z.leb_spec 0 have); [|lia]. destruct (Z.ltb_spec have want); [|lia]. cbn [check bind]. rewrite Hv, He. cbn [bind].
  destruct (own_graph_ok inv nranks m elems verts a Hinv Sm Hv He Wa) as (g & Eg & Hg). rewrite Eg. cbn [bind].
  destruct (l_owners _ _ Sv) as (A1 & A2 & A3 & _). assert (zlen (de_ranks verts) <= i32_max + 1) as Fit by lia.
  destruct (make_dist_ok inv (de_ranks verts) (de_idxs verts) _ Hinv (l_exist _ _ Sv) Fit (l_owners _ _ Sv)) as (ds1 & vd & _ & Em & _). rewrite Em. cbn [bind]. pose proof (make_dist_link inv _ _ _ Hinv (l_exist _ _ Sv) Fit (l_owners _ _ Sv) vd Em) as Kv.
  destruct (pair_up_ok (de_ranks verts) (de_idxs verts) A1 A3) as [P1 P2]. pose (vsrc := pair_up (de_ranks verts) (de_idxs verts)). fold vsrc in P1, P2. rewrite <- P1, <- P2 in Kv.
  destruct (layer_up g vd _ vsrc O Hg Kv) as (ed & ce & esrc & E1 & K1 & X1).
  { intros s r q. cbn [within]. rewrite <- (owner_of_vertex_on nranks m Sm Am Cm elems s r q He). split.
    - intros (c & Hc). apply copy_ranks in Hc. rewrite P1, P2 in Hc. eauto.
    - intros (verts' & v & Hv' & O). assert (verts' = verts) as -> by congruence. exists v. apply copy_ranks. rewrite P1, P2. exact O. }
  rewrite E1. cbn [bind].
  assert (exists vo ed' ce' esrc', (if 1 <? want - have then form_down_use_owners (with_verts elems (elems2verts a)) verts else Ok ([], [])) = Ok vo /\ add_layers inv m g vo (Z.to_nat (want - have - 1)) ed = Ok ed' /\
    link ed' ce' (map (map fst) esrc') (map (map snd) esrc') (de_nents elems) /\ has_exactly elems esrc' (fun s => within m elems s (Z.to_nat (want - have)))) as (vo & ed' & ce' & esrc' & E2 & E3 & K3 & X3).
  { destruct (Z.ltb_spec 1 (want - have)) as [B|B].
    - assert (element_degree (dm_family m) (dm_dim m) 0 = dm_dim m + 1) as Edeg. { destruct Hf as [|Hf]; [lia|]. rewrite Hf. pose proof (s_dim _ _ Sm). assert (dm_dim m = 1 \/ dm_dim m = 2 \/ dm_dim m = 3) as [-> |[-> | ->]] by lia; reflexivity. }
      destruct (form_uses_ok nranks m elems verts a Sm Hv He Wa) as (ur & ui & Eu & Hu). destruct (add_layers_ok g ur ui (Z.to_nat (want - have - 1)) Edeg Hg Hu 1%nat ed ce esrc K1 X1) as (ed' & ce' & esrc' & E & K & X).
      exists (ur, ui), ed', ce', esrc'. split; [exact Eu|]. split; [exact E|]. split; [exact K|]. replace (Z.to_nat (want - have)) with (1 + Z.to_nat (want - have - 1))%nat by lia. exact X.
    - assert (want - have = 1) as E by lia. rewrite E. exists ([], []), ed, ce, esrc. split; [reflexivity|]. split; [reflexivity|]. split; [exact K1|exact X1]. }
  rewrite E2. cbn [bind]. rewrite E3. cbn [bind]. destruct (migrate_exactly OMEGA_H_GHOSTED ed' ce' esrc' _ K3 X3) as (m' & srcs & E4 & Hs & M & C' & U).
  exists m', srcs, esrc'. split; [exact E4|]. split; [exact M|]. split; [exact Hs|]. split; [exact X3|].
  pose proof (has_exactly_copy elems esrc' _ X3 (fun s t j => within_range s _ t j)) as Cp.
  assert (owners_present OMEGA_H_GHOSTED m srcs) as Op.
  { intros d e src s c r q o _ Hed Hsr Hc Hro. assert (owner_is (de_ranks e) (de_idxs e) r q r q) as O. { eapply (sources_own nranks OMEGA_H_GHOSTED m m' srcs Sm M Am elems esrc' He Hs); eauto. intros s' c' t j Hc'. eapply within_owner, Cp; eauto. }
    pose proof (goes_to_fun _ _ _ _ _ (proj1 O) Hro) as <-. pose proof (zget_bounds _ _ _ Hed) as Bd. pose proof (s_levels _ _ Sm) as Ls. eapply (keeps_all nranks OMEGA_H_GHOSTED m m' srcs Sm M Am elems esrc' Cm He Hs) with (n := Z.to_nat (dm_dim m - d)); eauto; [|lia].
    intros s' t j Hon. apply Cp, within_on, Hon. }
  split; [exact Op|]. destruct (U Op) as [U1 U2]. auto.
Qed.

Lemma by_verts_ok : exists m' srcs src, partition_by_verts inv m a = Ok m' /\ migrated OMEGA_H_VERT_BASED m m' srcs /\ zget srcs (dm_dim m) = Ok src /\
  has_exactly elems src (fun s t j => is_owner elems t j /\ exists q, has_vertex m t j s q) /\ owners_present OMEGA_H_VERT_BASED m srcs /\ sound nranks m' /\ agrees m' /\ covered m'.
Proof using Hinv Sm Am Hv He Wa.
  pose proof (s_level _ _ Sm _ _ Hv) as Sv. pose proof (s_level _ _ Sm _ _ He) as Se. pose proof (l_nranks _ _ Se) as Ne. pose proof (l_nranks _ _ Sv) as Nv. pose proof (s_ranks _ _ Sm) as Br. unfold partition_by_verts. destruct (own_graph_ok inv nranks m elems verts a Hinv Sm Hv He Wa) as (g & Eg & Hg). rewrite Eg. cbn [bind]. rewrite He. cbn [bind].
  pose proof Hg as [(G1 & G2 & G3) Gf Ge].
  assert (forall s x y, zget (edge_ranks g) s = Ok x -> zget (edge_idxs g) s = Ok y -> exists f, zget (locals2edges g) s = Ok f /\ is_fan f /\ last_of f = Ok (zlen x) /\ zlen y = zlen x) as Fx.
  { intros s x y Hx Hy. pose proof (zget_bounds _ _ _ Hx) as B. destruct (zget_in_range (locals2edges g) s ltac:(lia)) as (f & Hf). destruct (zget_in_range (de_nents verts) s ltac:(lia)) as (k & Hk). destruct (Gf s f x y k Hf Hx Hy Hk) as (H1 & _ & H2 & H3). eauto. }
  assert (forall s t j, (exists i, owner_is (edge_ranks g) (edge_idxs g) s i t j) <-> exists q, around m elems s q t j) as Us.
  { intros s t j. split.
    - intros (i & (x & Hx & Ht) & (y & Hy & Hj)). destruct (Fx s x y Hx Hy) as (f & Hf & F1 & F2 & _). destruct (in_group_exists f _ i F1 F2) as (q & Hq); [eapply zget_bounds; eauto|]. exists q. apply (Ge s f x y q t j Hf Hx Hy). eauto.
    - intros (q & Ar). assert (0 <= s < nranks) as B. { destruct Ar as (u & z & _ & v' & v & Hv' & _ & O1 & _). assert (v' = verts) as -> by congruence. pose proof (l_exist _ _ Sv u v s O1) as B. pose proof (proj1 (l_size _ _ Sv)). lia. }
      destruct (zget_in_range (locals2edges g) s ltac:(lia)) as (f & Hf). destruct (zget_in_range (edge_ranks g) s ltac:(lia)) as (x & Hx). destruct (zget_in_range (edge_idxs g) s ltac:(lia)) as (y & Hy). apply (Ge s f x y q t j Hf Hx Hy) in Ar as (c & _ & H1 & H2). exists c. split; [exists x|exists y]; auto. }
  assert (forall s i t, goes_to (edge_ranks g) s i t -> exists j, owner_is (edge_ranks g) (edge_idxs g) s i t j) as Ex.
  { intros s i t (x & Hx & Hi). destruct (zget_in_range (edge_idxs g) s) as (y & Hy); [rewrite G3, <- G2; eapply zget_bounds; eauto|]. destruct (Fx s x y Hx Hy) as (_ & _ & _ & _ & Ly). destruct (zget_in_range y i) as (j & Hj); [rewrite Ly; eapply zget_bounds; eauto|]. exists j. split; [exists x|exists y]; auto. }
  assert (ranks_exist (edge_ranks g)) as Re. { intros s i t H. destruct (Ex s i t H) as (j & O). destruct (proj1 (Us s t j) ltac:(eauto)) as (q & A). destruct (around_owner nranks m elems Sm He _ _ _ _ A) as (_ & _ & _ & B). lia. }
  assert (addressed (edge_ranks g) (edge_idxs g) (de_nents elems)) as Ae.
  { split; [lia|]. split; [lia|]. split; [intros s x y Hx Hy; destruct (Fx s x y Hx Hy) as (_ & _ & _ & _ & Ly); exact Ly|]. split; [exact (proj1 (proj2 (proj2 (proj2 (l_owners _ _ Se)))))|]. intros s i t j H1 H2. destruct (proj1 (Us s t j) ltac:(exists i; split; assumption)) as (q & A). destruct (around_owner nranks m elems Sm He _ _ _ _ A) as (n & Hn & B & _). eauto. }
  destruct (make_dist_ok inv _ _ _ Hinv Re ltac:(lia) Ae) as (ds1 & ds & _ & Em & _). rewrite Em. cbn [bind]. pose proof (make_dist_link inv _ _ _ Hinv Re ltac:(lia) Ae ds Em) as Ku.
  destruct (level_globals _ _ Se) as (gl & Egl & Dg & Ug). rewrite Egl. cbn [bind]. destruct (get_new_copies_ok ds _ _ _ _ Ku ltac:(lia) (dt_data gl) Dg) as (ed & ce & esrc & E1 & K1 & Ls & Gs). rewrite E1. cbn [bind].
  assert (has_exactly elems esrc (fun s t j => is_owner elems t j /\ exists q, has_vertex m t j s q)) as X.
  { split; [lia|]. intros s l Hl. destruct (Gs s l Hl) as (H1 & H2 & H3). split; [exact H1|]. split; [|intros g' Hg'; rewrite (Ug g' Hg'); exact H3]. intros t j. rewrite H2, Us. split.
    - intros (q & A). apply (around_vertex nranks m Sm Am elems s q t j He) in A as [A1 A2]. eauto.
    - intros (A1 & q & A2). exists q. apply (around_vertex nranks m Sm Am elems s q t j He). auto. }
  destruct (migrate_exactly OMEGA_H_VERT_BASED ed ce esrc _ K1 X) as (m' & srcs & E4 & Hs & M & C' & U). exists m', srcs, esrc. split; [exact E4|]. split; [exact M|]. split; [exact Hs|]. split; [exact X|].
  assert (forall s t j, is_owner elems t j /\ (exists q, has_vertex m t j s q) -> 0 <= s < zlen (de_nents elems)) as Rg.
  { intros s t j (_ & q & v' & v & Hv' & _ & O1 & _). assert (v' = verts) as -> by congruence. pose proof (l_exist _ _ Sv t v s O1) as B. pose proof (proj1 (l_size _ _ Sv)). lia. }
  pose proof (has_exactly_copy elems esrc _ X Rg) as Cp.
  assert (owners_present OMEGA_H_VERT_BASED m srcs) as Op.
  { intros d e src s c r q o Hk Hed Hsr Hc Hro. cbn in Hk. apply Z.eqb_eq in Hk. subst d. assert (e = verts) as -> by (unfold verts_of in Hv; change VERT with 0 in Hv; congruence).
    assert (forall s' c' t j, copy_of esrc s' c' t j -> is_owner elems t j) as Own by (intros s' c' t j Hc'; eapply proj1, Cp; eauto).
    assert (owner_is (de_ranks verts) (de_idxs verts) r q r q) as O by (eapply (sources_own nranks OMEGA_H_VERT_BASED m m' srcs Sm M Am elems esrc He Hs Own); eauto).
    pose proof (goes_to_fun _ _ _ _ _ (proj1 O) Hro) as <-. pose proof (s_dim _ _ Sm) as D.
    assert (forall s0, (exists c0, copy_of src s0 c0 r q) <-> exists c0 t j v, copy_of esrc s0 c0 t j /\ bounds m (Z.to_nat (dm_dim m)) t j v /\ owner_is (de_ranks verts) (de_idxs verts) t v r q) as Vo.
    { intros s0. apply (vertices_of nranks OMEGA_H_VERT_BASED m m' srcs Sm M Am (Z.to_nat (dm_dim m)) (dm_dim m) esrc s0 r q src elems verts); auto; [lia|lia|].
      intros s' c' t j Hc'. eapply (sources_own nranks OMEGA_H_VERT_BASED m m' srcs Sm M Am elems esrc He Hs Own); eauto. }
    apply Vo. destruct (proj1 (Vo s) ltac:(eauto)) as (c0 & t & j & v & Hc0 & Hb & Ov). assert (has_vertex m t j r q) as Hh by (exists verts, v; auto).
    destruct (proj2 (Cp r t j)) as (c1 & Hc1); [split; [eapply Own; eauto|exists q; exact Hh]|]. exists c1, t, j, v. auto. }
  split; [exact Op|]. destruct (U Op) as [U1 U2]. auto.
Qed.
End ghost.
