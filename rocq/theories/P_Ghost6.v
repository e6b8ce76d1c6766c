(** Proofs about partition_by_elems. *)
From Coq Require Import Sorting.Sorted.
From Verif Require Import Prelude M_Array M_Par M_Scan M_Sort M_Map M_Tags M_Template M_Dist M_Owners M_Migrate M_Ghost S_Map S_Dist S_Owners S_Migrate S_Ghost.
From Verif Require Import P_Array P_Map P_Map2 P_Fan P_Dist P_Dist2 P_Dist3 P_Dist5 P_Owners P_Link P_Migrate2 P_Migrate4 P_Migrate5 P_Migrate6 P_Ghost2 P_Ghost3 P_Ghost4 P_Ghost5.
Local Open Scope Z_scope.

Lemma Forall2_zget_intro {A B} (R : A -> B -> Prop) : forall l l', zlen l = zlen l' -> (forall i a b, zget l i = Ok a -> zget l' i = Ok b -> R a b) -> Forall2 R l l'.
Proof.
  induction l as [|a l IH]; intros [|b l'] L H; rewrite ?zlen_cons in L; change (zlen (@nil A)) with 0 in L; change (zlen (@nil B)) with 0 in L.
  - constructor.
  - pose proof (zlen_nonneg l'). lia.
  - pose proof (zlen_nonneg l). lia.
  - pose proof (zlen_nonneg l'). constructor; [apply (H 0); reflexivity|]. apply IH; [lia|]. intros i x y Hx Hy. pose proof (zget_bounds _ _ _ Hx).
    apply (H (i + 1)); [|]; unfold zget; rewrite (proj2 (Z.ltb_ge (i + 1) 0)) by lia; rewrite Z2Nat.inj_add by lia; rewrite Nat.add_1_r; cbn; [unfold zget in Hx|unfold zget in Hy]; rewrite (proj2 (Z.ltb_ge i 0)) in * by lia; assumption.
Qed.

Section by_elems.
Context (inv : Z -> list Z -> Z -> res (list Z * list Z)) (nranks : Z) (m : dmesh) (elems : dents).
Hypothesis Hinv : inverter inv.
Hypothesis Sm : sound nranks m.
Hypothesis He : elems_of m = Ok elems.

Lemma by_elems_ok : exists m' srcs src, partition_by_elems inv m = Ok m' /\ migrated OMEGA_H_ELEM_BASED m m' srcs /\ zget srcs (dm_dim m) = Ok src /\
  owned_in_order elems src /\ sound nranks m' /\ agrees m' /\ covered m'.
Proof using Hinv Sm He.
  pose proof (s_level _ _ Sm _ _ He) as Se. pose proof (l_nranks _ _ Se) as Ne. pose proof (s_ranks _ _ Sm) as Br. destruct (l_size _ _ Se) as [Ls Gs]. destruct (l_owners _ _ Se) as (A1 & A2 & A3 & A4 & A5). unfold partition_by_elems. rewrite He. cbn [bind].
  destruct (on_ranks_rel (de_ranks elems) (fun r ranks => collect_marked (map (fun x => if x =? r then 1 else 0) ranks)) (fun s ranks o => StronglySorted Z.lt o /\ forall x, In x o <-> zget ranks x = Ok s)) as (o & Eo & Lo & Go).
  { intros s ranks Hs. destruct (collect_marked_full (map (fun x => if x =? s then 1 else 0) ranks)) as (o & E & So & Io).
    - intros k I. apply in_map_iff in I as (y & <- & _). destruct (y =? s); auto.
    - exists o. split; [exact E|]. split; [exact So|]. intros x. rewrite Io. split.
      + intros H. apply zget_map_inv in H as (y & Hy & E'). destruct (Z.eqb_spec y s); [subst; exact Hy|discriminate].
      + intros H. rewrite zget_map, H. cbn. rewrite Z.eqb_refl. reflexivity. }
  rewrite Eo. cbn [bind].
  assert (forall r u n c i, zget o r = Ok u -> zget (de_nents elems) r = Ok n -> zget u c = Ok i -> 0 <= i < n) as Bo.
  { intros r u n c i Hu Hn Hc. destruct (zget_in_range (de_ranks elems) r) as (a & Ha); [rewrite <- Lo; eapply zget_bounds; eauto|]. destruct (Go r a u Ha Hu) as [_ I]. pose proof (proj1 (I i) (zget_In _ _ _ Hc)) as Hi. pose proof (zget_bounds _ _ _ Hi). rewrite (Gs r n a Hn Ha) in *. lia. }
  destruct (unmap_uses o (de_nents elems) (de_ranks elems) ltac:(lia) (l_size _ _ Se) Bo) as (ranks & Er & Dr & Ir). rewrite Er. cbn [bind].
  assert (data_per_root (de_nents elems) (de_idxs elems) 1) as Di. { split; [lia|]. intros s n y Hn Hy. destruct (zget_in_range (de_ranks elems) s) as (a & Ha); [rewrite Ls; eapply zget_bounds; eauto|]. rewrite (A3 s a y Ha Hy). exact (Gs s n a Hn Ha). }
  destruct (unmap_uses o (de_nents elems) (de_idxs elems) ltac:(lia) Di Bo) as (idxs & Ei & Dx & Ix). rewrite Ei. cbn [bind].
  destruct Dr as [Lr Gr]. destruct Dx as [Lx Gx]. rewrite zlen_map in Lr, Lx.
  assert (forall s c t j, owner_is ranks idxs s c t j <-> exists x, goes_to o s c x /\ owner_is (de_ranks elems) (de_idxs elems) s x t j) as Ow.
  { intros s c t j. unfold owner_is. rewrite Ir, Ix. split.
    - intros [(x & H1 & H2) (y & H3 & H4)]. pose proof (goes_to_fun _ _ _ _ _ H1 H3) as <-. eauto.
    - intros (x & H1 & H2 & H3). eauto 6. }
  assert (forall s c x, goes_to o s c x -> goes_to (de_ranks elems) s x s) as Self.
  { intros s c x (u & Hu & Hc). destruct (zget_in_range (de_ranks elems) s) as (a & Ha); [rewrite <- Lo; eapply zget_bounds; eauto|]. exists a. split; [exact Ha|]. apply (Go s a u Ha Hu). eapply zget_In; eauto. }
  assert (ranks_exist ranks) as Re. { intros s c t H. apply Ir in H as (x & Hx & Ht). pose proof (l_exist _ _ Se _ _ _ Ht). lia. }
  assert (addressed ranks idxs (de_nents elems)) as Ad.
  { split; [lia|]. split; [lia|]. split.
    - intros s a b Ha Hb. pose proof (zget_bounds _ _ _ Ha). destruct (zget_in_range o s ltac:(lia)) as (u & Hu). rewrite (Gr s (zlen u) a ltac:(rewrite zget_map, Hu; reflexivity) Ha), (Gx s (zlen u) b ltac:(rewrite zget_map, Hu; reflexivity) Hb). reflexivity.
    - split; [exact A4|]. intros s i t j H1 H2. apply Ir in H1 as (x & Hx & Ht). apply Ix in H2 as (x' & Hx' & Hj). pose proof (goes_to_fun _ _ _ _ _ Hx Hx') as <-. eauto. }
  destruct (migrate_moves inv nranks m OMEGA_H_ELEM_BASED ranks idxs elems Hinv Sm He Re Ad) as (ds & m' & srcs & src & E1 & E2 & M & Hs & M1 & M2 & U). rewrite E1. cbn [bind].
  assert (owners_present OMEGA_H_ELEM_BASED m srcs) as Op by (intros d e src0 s c r q k Hk; discriminate).
  destruct (U Op) as [U1 U2].
  exists m', srcs, src. split; [exact E2|]. split; [exact M|]. split; [exact Hs|]. split; [|split; [exact U1|split; [exact U2|exact (moved_covered nranks OMEGA_H_ELEM_BASED m m' srcs Sm M)]]].
  assert (zlen src = zlen ranks) as Lsrc by (rewrite <- M1, zlen_map; reflexivity). split; [lia|]. intros s l Hl. pose proof (zget_bounds _ _ _ Hl) as B. destruct (zget_in_range o s ltac:(lia)) as (u & Hu). destruct (zget_in_range (de_ranks elems) s ltac:(lia)) as (a & Ha). destruct (Go s a u Ha Hu) as [So Io].
  exists u. split; [exact So|]. split.
  - intros x. rewrite Io. split; [intros H; exists a; auto|intros (a' & Ha' & H); congruence].
  - apply Forall2_zget_intro.
    + assert (zget ranks s = Ok (map fst l)) as Hr by (rewrite <- M1, zget_map, Hl; reflexivity). pose proof (Gr s (zlen u) _ ltac:(rewrite zget_map, Hu; reflexivity) Hr) as L. rewrite zlen_map in L. lia.
    + intros c x [t j] Hx Hp. cbn [fst snd]. assert (owner_is ranks idxs s c t j) as O. { rewrite <- M1, <- M2. apply copy_ranks. exists l. auto. }
      apply Ow in O as (x' & (u' & Hu' & Hx') & O). assert (u' = u) as -> by congruence. assert (x' = x) as -> by congruence. exact O.
Qed.
End by_elems.
