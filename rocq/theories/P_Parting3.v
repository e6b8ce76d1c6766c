(** Proofs about set_parting. *)
From Coq Require Import Sorting.Sorted.
From Verif Require Import Prelude M_Array M_Par M_Scan M_Sort M_Map M_Tags M_Template M_Dist M_Owners M_Migrate M_Ghost M_Parting S_Map S_Dist S_Owners S_Migrate S_Ghost S_Parting.
From Verif Require Import P_Array P_Map P_Map2 P_Fan P_Dist P_Dist2 P_Dist3 P_Dist5 P_Dist6 P_Owners P_Link P_Migrate2 P_Migrate4 P_Migrate5 P_Migrate6 P_Ghost2 P_Ghost3 P_Ghost4 P_Ghost5 P_Ghost6 P_Parting P_Parting2.
Local Open Scope Z_scope.

Lemma Forall2_at {A B} (R : A -> B -> Prop) : forall l l' i a b, Forall2 R l l' -> zget l i = Ok a -> zget l' i = Ok b -> R a b.
Proof.
  intros l l' i a b F. setoid_rewrite zget_ok. intros [Hi Ea] [_ Eb]. revert Ea Eb. generalize (Z.to_nat i). induction F as [|x y l l' Hxy F IH]; intros [|k] Ea Eb; cbn in *; try discriminate; [congruence|eauto].
Qed.
Definition usable (nranks : Z) (m : dmesh) : Prop := sound nranks m /\ agrees m /\ covered m /\ answerable m.
Section partings.
Context (inv : Z -> list Z -> Z -> res (list Z * list Z)) (ask : dmesh -> res asked) (nranks : Z).
Hypothesis Hinv : inverter inv.
Hypothesis Hask : answers nranks ask.

Lemma ends_of m : sound nranks m -> exists elems verts, elems_of m = Ok elems /\ verts_of m = Ok verts.
Proof using Type.
  intros Sm. pose proof (s_dim _ _ Sm) as D. pose proof (s_levels _ _ Sm) as Lv. destruct (zget_in_range (dm_ents m) (dm_dim m) ltac:(lia)) as (elems & He). destruct (zget_in_range (dm_ents m) VERT) as (verts & Hv); [change VERT with 0; lia|]. eauto.
Qed.

Lemma step_elems m : usable nranks m -> exists m' R, partition_by_elems inv m = Ok m' /\ usable nranks m' /\ distributed m' OMEGA_H_ELEM_BASED 0 /\ same_mesh m m' R.
Proof using Hinv.
  intros (Sm & Am & Cm & Wm). destruct (ends_of m Sm) as (elems & verts & He & Hv). destruct (by_elems_ok inv nranks m elems Hinv Sm He) as (m' & srcs & src & E & Mv & Hs & [Ls Oo] & Sm' & Am' & Cm'). pose proof (s_level _ _ Sm _ _ He) as Se. pose proof (l_nranks _ _ Se) as Ne.
  assert (owners_present OMEGA_H_ELEM_BASED m srcs) as Pr by (intros d e src0 s c r q k Hk; discriminate).
  assert (forall s c t j, copy_of src s c t j -> t = s /\ is_owner elems t j) as Own.
  { intros s c t j (l & Hl & Hc). destruct (Oo s l Hl) as (o & _ & Io & F). pose proof (zget_bounds _ _ _ Hc) as B. assert (zlen o = zlen l) as L by (unfold zlen; f_equal; exact (Forall2_len _ _ _ F)). destruct (zget_in_range o c ltac:(lia)) as (x & Hx).
    assert (owner_is (de_ranks elems) (de_idxs elems) s x t j) as O. { exact (Forall2_at _ _ _ c x (t, j) F Hx Hc). } pose proof (proj1 (Io x) (zget_In _ _ _ Hx)) as G. split; [exact (goes_to_fun _ _ _ _ _ (proj1 O) G)|]. exists s, x. exact O. }
  assert (forall t j, is_owner elems t j -> exists s c, copy_of src s c t j) as Every.
  { intros t j (s & x & O). destruct (proj1 Am _ _ He s x t j O) as [O' _]. pose proof (zget_in_range src t) as B. destruct B as (l & Hl); [rewrite Ls; destruct (owner_range nranks elems t j t j Se O') as (n & Hn & _); eapply zget_bounds; eauto|]. destruct (Oo t l Hl) as (o & _ & Io & F).
    pose proof (proj2 (Io j) (proj1 O')) as I. apply In_zget in I as (c & Hc). pose proof (zget_bounds _ _ _ Hc) as Bc. assert (zlen o = zlen l) as L by (unfold zlen; f_equal; exact (Forall2_len _ _ _ F)). destruct (zget_in_range l c ltac:(lia)) as ([t1 j1] & Hp). pose proof (Forall2_at _ _ _ c j (t1, j1) F Hc Hp) as O2. cbn [fst snd] in O2. destruct (owner_fun _ _ _ _ _ _ _ _ O' O2) as [-> ->]. exists t, c, l. auto. }
  assert (forall s c t j, copy_of src s c t j -> is_owner elems t j) as Own2 by (intros s c t j C; apply (Own s c t j C)).
  exists m', (moved_to m srcs). split; [exact E|]. split; [|split].
  - split; [exact Sm'|]. split; [exact Am'|]. split; [exact Cm'|]. apply (moved_answerable nranks OMEGA_H_ELEM_BASED m m' srcs elems src); auto. lia.
  - intros elems' He'. split; [reflexivity|]. apply (moved_by_elems nranks OMEGA_H_ELEM_BASED m m' srcs elems src Sm Am Am' Mv Pr He Hs Own2 elems' He'). intros s c t j C. apply (Own s c t j C).
  - apply (migrated_same nranks OMEGA_H_ELEM_BASED m m' srcs elems src); auto. lia.
Qed.

Lemma step_verts m : usable nranks m -> exists a m' R, ask m = Ok a /\ partition_by_verts inv m a = Ok m' /\ usable nranks m' /\ distributed m' OMEGA_H_VERT_BASED 1 /\ same_mesh m m' R.
Proof using Hinv Hask.
  intros (Sm & Am & Cm & Wm). destruct (ends_of m Sm) as (elems & verts & He & Hv). destruct (Hask m elems verts Sm He Hv Wm) as (a & Ea & Wa). destruct (by_verts_ok inv nranks m elems verts a Hinv Sm Am Hv He Wa) as (m' & srcs & src & E & Mv & Hs & X & Pr & Sm' & Am' & Cm'). pose proof (s_level _ _ Sm _ _ He) as Se. pose proof (l_nranks _ _ Se) as Ne. pose proof (s_level _ _ Sm _ _ Hv) as Sv. pose proof (l_nranks _ _ Sv) as Nv. pose proof (proj1 X) as Ls.
  assert (forall s t j, is_owner elems t j /\ (exists q, has_vertex m t j s q) -> 0 <= s < zlen (de_nents elems)) as Rg.
  { intros s t j (_ & q & v' & v & Hv' & _ & O1 & _). assert (v' = verts) as -> by congruence. pose proof (l_exist _ _ Sv t v s O1) as B. pose proof (proj1 (l_size _ _ Sv)). lia. }
  pose proof (has_exactly_copy elems src _ X Rg) as Cp.
  assert (forall s c t j, copy_of src s c t j -> is_owner elems t j) as Own by (intros s c t j C; eapply proj1, Cp; eauto).
  assert (forall t j, is_owner elems t j -> exists s c, copy_of src s c t j) as Every.
  { intros t j (s & x & O). destruct (has_some_vertex nranks m elems verts a Sm Am Hv He Wa s x t j O) as (r & q & Hh). destruct (proj2 (Cp r t j)) as (c & C); [split; [exists s, x; exact O|exists q; exact Hh]|]. exists r, c. exact C. }
  exists a, m', (moved_to m srcs). split; [exact Ea|]. split; [exact E|]. split; [|split].
  - split; [exact Sm'|]. split; [exact Am'|]. split; [exact Cm'|]. apply (moved_answerable nranks OMEGA_H_VERT_BASED m m' srcs elems src); auto. lia.
  - intros elems' He'. split; [reflexivity|]. apply (moved_by_verts nranks OMEGA_H_VERT_BASED m m' srcs elems src); auto. lia.
  - apply (migrated_same nranks OMEGA_H_VERT_BASED m m' srcs elems src); auto. lia.
Qed.

Lemma step_ghost m have want : usable nranks m -> distributed m OMEGA_H_GHOSTED have -> 0 <= have < want -> want = have + 1 \/ dm_family m = OMEGA_H_SIMPLEX ->
  exists a m' R, ask m = Ok a /\ ghost_mesh inv m a have want = Ok m' /\ usable nranks m' /\ distributed m' OMEGA_H_GHOSTED want /\ same_mesh m m' R.
Proof using Hinv Hask.
  intros (Sm & Am & Cm & Wm) Dm Hw Hf. destruct (ends_of m Sm) as (elems & verts & He & Hv). destruct (Hask m elems verts Sm He Hv Wm) as (a & Ea & Wa). destruct (ghost_ok inv nranks m elems verts a Hinv Sm Am Cm Hv He Wa have want Hw Hf) as (m' & srcs & src & E & Mv & Hs & X & Pr & Sm' & Am' & Cm'). pose proof (s_level _ _ Sm _ _ He) as Se. pose proof (l_nranks _ _ Se) as Ne. pose proof (proj1 X) as Ls.
  pose proof (has_exactly_copy elems src _ X (fun s t j => within_range nranks m elems Sm He s _ t j)) as Cp.
  assert (forall s c t j, copy_of src s c t j -> is_owner elems t j) as Own by (intros s c t j C; eapply within_owner, Cp; eauto).
  assert (forall t j, is_owner elems t j -> exists s c, copy_of src s c t j) as Every.
  { intros t j (s & Hon). destruct (proj2 (Cp s t j)) as (c & C); [apply (within_on nranks m elems verts a Sm Am Hv He Wa); exact Hon|]. exists s, c. exact C. }
  exists a, m', (moved_to m srcs). split; [exact Ea|]. split; [exact E|]. split; [|split].
  - split; [exact Sm'|]. split; [exact Am'|]. split; [exact Cm'|]. apply (moved_answerable nranks OMEGA_H_GHOSTED m m' srcs elems src); auto. lia.
  - intros elems' He'. split; [lia|]. destruct (Dm elems He) as [_ Dh]. replace (Z.to_nat want) with (Z.to_nat have + Z.to_nat (want - have))%nat by lia. apply (moved_ghosted nranks OMEGA_H_GHOSTED m m' srcs elems src); auto. lia.
  - apply (migrated_same nranks OMEGA_H_GHOSTED m m' srcs elems src); auto. lia.
Qed.

(** one rank has everything *)
Lemma alone m p n : nranks = 1 -> usable nranks m -> (match p with OMEGA_H_ELEM_BASED => n = 0 | OMEGA_H_VERT_BASED => n = 1 | OMEGA_H_GHOSTED => 0 <= n end) -> distributed m p n.
Proof using Type.
  intros N1 (Sm & Am & Cm & (elems0 & verts & a & He0 & Hv & Wa)) Hn elems He. assert (elems0 = elems) as -> by congruence. pose proof (s_level _ _ Sm _ _ He) as Se. pose proof (l_nranks _ _ Se) as Ne. pose proof (proj1 (l_size _ _ Se)) as Lr. pose proof (s_level _ _ Sm _ _ Hv) as Sv. pose proof (l_nranks _ _ Sv) as Nv. pose proof (proj1 (l_size _ _ Sv)) as Lrv.
  assert (forall s t j, is_on elems s t j -> s = 0 /\ t = 0) as Zero. { intros s t j (x & (b & Hb & Hx) & _). pose proof (zget_bounds _ _ _ Hb). pose proof (l_exist _ _ Se s x t ltac:(exists b; auto)). lia. }
  assert (forall t j r q, has_vertex m t j r q -> r = 0) as Vz. { intros t j r q (verts0 & v & Hv0 & _ & O & _). assert (verts0 = verts) as -> by congruence. pose proof (l_exist _ _ Sv t v r O). lia. }
  destruct p.
  - split; [exact Hn|]. intros s t j H. destruct (Zero _ _ _ H). congruence.
  - split; [exact Hn|]. assert (forall s k t j, is_on elems s t j -> near m elems s k t j) as Up.
    { intros s k. induction k as [|k IH]; intros t j Hon; [destruct (Zero _ _ _ Hon) as [-> ->]; split; [reflexivity|exact Hon]|]. exists t, j. split; [apply IH, Hon|]. destruct Hon as (x & O). split; [exists s, x; exact O|]. destruct (has_some_vertex nranks m elems verts a Sm Am Hv He Wa s x t j O) as (r & q & Hh). exists r, q. auto. }
    intros s t j. split; [apply Up|]. intros H. assert (s = 0) as ->. { revert t j H. induction (Z.to_nat n) as [|k IH]; intros t j; cbn [near]; [intros [-> H]; apply (Zero _ _ _ H)|]. intros (t' & j' & H & _). eauto. }
    destruct (near_owner _ _ _ _ _ _ H) as (s' & Hon). pose proof Hon as Hon2. apply Zero in Hon2 as [-> _]. exact Hon.
  - split; [exact Hn|]. intros s t j. split.
    + intros Hon. split; [exists s; exact Hon|]. destruct (Zero _ _ _ Hon) as [-> ->]. destruct Hon as (x & O). destruct (has_some_vertex nranks m elems verts a Sm Am Hv He Wa 0 x 0 j O) as (r & q & Hh). pose proof (Vz _ _ _ _ Hh) as ->. eauto.
    + intros ((s' & Hon) & q & Hh). pose proof (Vz _ _ _ _ Hh) as ->. pose proof Hon as H. apply Zero in H as [-> _]. exact Hon.
Qed.

Lemma parted_usable pm : parted nranks pm -> usable nranks (pm_mesh pm).
Proof using Type. intros (H1 & H2 & H3 & H4 & _). split; [exact H1|]. auto. Qed.
Lemma parted_intro m p n : usable nranks m -> distributed m p n -> parted nranks (PMesh m (Some p) n).
Proof using Type. intros (H1 & H2 & H3 & H4) H. split; [exact H1|]. auto. Qed.
Lemma same_parting_ok p q : same_parting p q = true <-> p = q.
Proof using Type. destruct p, q; cbn; split; congruence. Qed.
Lemma nranks_one m : sound nranks m -> 1 <? nranks = false -> nranks = 1.
Proof using Type. intros Sm H. apply Z.ltb_ge in H. pose proof (s_ranks _ _ Sm). lia. Qed.

Lemma to_elems again pm old : parted nranks pm -> pm_parting pm = Some old -> exists pm' R, set_parting_step again inv ask nranks pm OMEGA_H_ELEM_BASED 0 = Ok pm' /\
  pm_parting pm' = Some OMEGA_H_ELEM_BASED /\ pm_layers pm' = 0 /\ parted nranks pm' /\ same_mesh (pm_mesh pm) (pm_mesh pm') R.
Proof using Hinv.
  intros P Eo. pose proof (parted_usable _ P) as U. pose proof (proj1 U) as Sm. unfold set_parting_step. rewrite Eo. destruct (same_parting old OMEGA_H_ELEM_BASED && (pm_layers pm =? 0)) eqn:Es.
  - apply andb_prop in Es as [E1 E2]. apply same_parting_ok in E1. apply Z.eqb_eq in E2. subst old. exists pm, (itself (pm_mesh pm)). split; [reflexivity|]. split; [exact Eo|]. split; [exact E2|]. split; [exact P|]. eapply same_mesh_refl; eauto.
  - cbn [Z.eqb check bind]. destruct (1 <? nranks) eqn:En.
    + destruct (step_elems _ U) as (m' & R & E & U' & D & I). rewrite E. cbn [bind]. exists (PMesh m' (Some OMEGA_H_ELEM_BASED) 0), R. cbn [pm_parting pm_layers pm_mesh]. split; [reflexivity|]. split; [reflexivity|]. split; [reflexivity|]. split; [apply parted_intro; assumption|exact I].
    + cbn [bind]. eexists. exists (itself (pm_mesh pm)). split; [reflexivity|]. cbn [pm_parting pm_layers pm_mesh]. split; [reflexivity|]. split; [reflexivity|]. split; [|eapply same_mesh_refl; eauto]. apply parted_intro; [exact U|]. apply alone; [eapply nranks_one; eauto|exact U|reflexivity].
Qed.
Lemma elems_ghosted m : sound nranks m -> distributed m OMEGA_H_ELEM_BASED 0 -> distributed m OMEGA_H_GHOSTED 0.
Proof using Type.
  intros Sm D elems He. destruct (D elems He) as [_ D']. split; [lia|]. intros s t j. change (Z.to_nat 0) with O. cbn [near]. split.
  - intros H. pose proof (D' _ _ _ H) as ->. auto.
  - intros [-> H]. exact H.
Qed.

Lemma set_parting_ok pm p n : parted nranks pm -> admissible (pm_mesh pm) p n -> (pm_parting pm = None -> distributed (pm_mesh pm) p n) ->
  exists pm' R, set_parting inv ask nranks pm p n = Ok pm' /\ pm_parting pm' = Some p /\ pm_layers pm' = n /\ parted nranks pm' /\ same_mesh (pm_mesh pm) (pm_mesh pm') R.
Proof using Hinv Hask.
  intros P Ad Hnone. pose proof (parted_usable _ P) as U. pose proof (proj1 U) as Sm. destruct (pm_parting pm) as [old|] eqn:Eo.
  2:{ unfold set_parting, set_parting_step. rewrite Eo. eexists. exists (itself (pm_mesh pm)). split; [reflexivity|]. split; [reflexivity|]. split; [reflexivity|]. split; [apply parted_intro; auto|eapply same_mesh_refl; eauto]. }
  clear Hnone. destruct p.
  - cbn in Ad. subst n. apply to_elems with (old := old); assumption.
  - unfold set_parting, set_parting_step at 1. rewrite Eo. destruct (same_parting old OMEGA_H_GHOSTED && (pm_layers pm =? n)) eqn:Es.
    + apply andb_prop in Es as [E1 E2]. apply same_parting_ok in E1. apply Z.eqb_eq in E2. subst old. exists pm, (itself (pm_mesh pm)). split; [reflexivity|]. split; [exact Eo|]. split; [exact E2|]. split; [exact P|]. eapply same_mesh_refl; eauto.
    + assert (exists pm1 R1, (if negb (same_parting old OMEGA_H_GHOSTED) || (n <? pm_layers pm) then set_parting_step (fun _ => UB) inv ask nranks pm OMEGA_H_ELEM_BASED 0 else Ok pm) = Ok pm1 /\
        usable nranks (pm_mesh pm1) /\ distributed (pm_mesh pm1) OMEGA_H_GHOSTED (pm_layers pm1) /\ 0 <= pm_layers pm1 < n /\ same_mesh (pm_mesh pm) (pm_mesh pm1) R1) as (pm1 & R1 & E1 & U1 & D1 & B1 & I1).
      { destruct (negb (same_parting old OMEGA_H_GHOSTED) || (n <? pm_layers pm)) eqn:Er.
        - destruct (to_elems (fun _ => UB) pm old P Eo) as (pm1 & R1 & E1 & E2 & E3 & P1 & I1). exists pm1, R1. split; [exact E1|]. pose proof (parted_usable _ P1) as U1. split; [exact U1|]. destruct P1 as (S1 & _ & _ & _ & D1). rewrite E2, E3 in D1. rewrite E3. split; [apply elems_ghosted; assumption|]. split; [|exact I1]. cbn in Ad. destruct Ad as [->|[]]; lia.
        - apply Bool.orb_false_iff in Er as [E1 E2]. apply Bool.negb_false_iff, same_parting_ok in E1. subst old. apply Z.ltb_ge in E2. exists pm, (itself (pm_mesh pm)). split; [reflexivity|]. split; [exact U|]. destruct P as (_ & _ & _ & _ & D). rewrite Eo in D. split; [exact D|]. split; [|eapply same_mesh_refl; eauto].
          cbn [same_parting andb] in Es. apply Z.eqb_neq in Es. destruct (ends_of _ Sm) as (elems & _ & He & _). destruct (D elems He) as [D0 _]. lia. }
      rewrite E1. cbn [bind]. destruct (1 <? nranks) eqn:En.
      * destruct (step_ghost (pm_mesh pm1) (pm_layers pm1) n U1 D1 B1) as (a & m' & R & Ea & E & U' & D & I). { cbn in Ad. destruct Ad as [->|[_ F]]; [lia|]. right. rewrite (i_family _ _ _ I1). exact F. }
        rewrite Ea. cbn [bind]. rewrite E. cbn [bind]. eexists. exists (chain R1 R). split; [reflexivity|]. cbn [pm_parting pm_layers pm_mesh]. split; [reflexivity|]. split; [reflexivity|]. split; [apply parted_intro; assumption|]. exact (same_mesh_chain nranks _ _ _ R1 R (proj1 U1) I1 I).
      * cbn [bind]. eexists. exists R1. split; [reflexivity|]. cbn [pm_parting pm_layers pm_mesh]. split; [reflexivity|]. split; [reflexivity|]. split; [|exact I1]. apply parted_intro; [exact U1|]. apply alone; [eapply nranks_one; eauto|exact U1|lia].
  - cbn in Ad. subst n. unfold set_parting, set_parting_step at 1. rewrite Eo. destruct (same_parting old OMEGA_H_VERT_BASED && (pm_layers pm =? 1)) eqn:Es.
    + apply andb_prop in Es as [E1 E2]. apply same_parting_ok in E1. apply Z.eqb_eq in E2. subst old. exists pm, (itself (pm_mesh pm)). split; [reflexivity|]. split; [exact Eo|]. split; [exact E2|]. split; [exact P|]. eapply same_mesh_refl; eauto.
    + cbn [Z.eqb Pos.eqb check bind]. destruct (1 <? nranks) eqn:En.
      * destruct (step_verts _ U) as (a & m' & R & Ea & E & U' & D & I). rewrite Ea. cbn [bind]. rewrite E. cbn [bind]. exists (PMesh m' (Some OMEGA_H_VERT_BASED) 1), R. cbn [pm_parting pm_layers pm_mesh]. split; [reflexivity|]. split; [reflexivity|]. split; [reflexivity|]. split; [apply parted_intro; assumption|exact I].
      * cbn [bind]. eexists. exists (itself (pm_mesh pm)). split; [reflexivity|]. cbn [pm_parting pm_layers pm_mesh]. split; [reflexivity|]. split; [reflexivity|]. split; [|eapply same_mesh_refl; eauto]. apply parted_intro; [exact U|]. apply alone; [eapply nranks_one; eauto|exact U|reflexivity].
Qed.

Lemma set_partings_ok : forall reqs pm old, parted nranks pm -> pm_parting pm = Some old -> (forall p n, In (p, n) reqs -> admissible (pm_mesh pm) p n) ->
  exists pm' R, foldM (fun pm r => set_parting inv ask nranks pm (fst r) (snd r)) reqs pm = Ok pm' /\ parted nranks pm' /\ same_mesh (pm_mesh pm) (pm_mesh pm') R.
Proof using Hinv Hask.
  induction reqs as [|[p n] reqs IH]; intros pm old P Eo Ad.
  - exists pm, (itself (pm_mesh pm)). split; [reflexivity|]. split; [exact P|]. eapply same_mesh_refl. exact (proj1 P).
  - cbn [foldM fst snd]. destruct (set_parting_ok pm p n P (Ad p n (or_introl eq_refl))) as (pm1 & R1 & E1 & E2 & _ & P1 & I1); [congruence|]. rewrite E1. cbn [bind].
    destruct (IH pm1 p P1 E2) as (pm' & R & E & P' & I'). { intros p' n' I. specialize (Ad p' n' (or_intror I)). unfold admissible in *. rewrite (i_family _ _ _ I1). exact Ad. }
    exists pm', (chain R1 R). split; [exact E|]. split; [exact P'|]. exact (same_mesh_chain nranks _ _ _ R1 R (proj1 P1) I1 I').
Qed.

Lemma set_parting_default_ok pm old p : parted nranks pm -> pm_parting pm = Some old ->
  exists pm' R, set_parting_default inv ask nranks pm p = Ok pm' /\ pm_parting pm' = Some p /\ pm_layers pm' = match p with OMEGA_H_ELEM_BASED => 0 | _ => 1 end /\ parted nranks pm' /\ same_mesh (pm_mesh pm) (pm_mesh pm') R.
Proof using Hinv Hask.
  intros P Eo. apply (set_parting_ok pm p _ P); [destruct p; cbn; auto|congruence].
Qed.

Lemma set_parting_refuses pm old p n : parted nranks pm -> pm_parting pm = Some old -> 1 < nranks -> ~ (old = p /\ pm_layers pm = n) ->
  match p with OMEGA_H_ELEM_BASED => n <> 0 | OMEGA_H_VERT_BASED => n <> 1 | OMEGA_H_GHOSTED => n < 1 end -> set_parting inv ask nranks pm p n = Abort.
Proof using Hinv Hask.
  intros P Eo N1 Ne Hn. pose proof (parted_usable _ P) as U. unfold set_parting, set_parting_step at 1. rewrite Eo.
  assert (same_parting old p && (pm_layers pm =? n) = false) as ->. { apply Bool.not_true_iff_false. intros H. apply andb_prop in H as [E1 E2]. apply same_parting_ok in E1. apply Z.eqb_eq in E2. tauto. }
  destruct p.
  - destruct (Z.eqb_spec n 0); [tauto|reflexivity].
  - assert (exists pm1, (if negb (same_parting old OMEGA_H_GHOSTED) || (n <? pm_layers pm) then set_parting_step (fun _ => UB) inv ask nranks pm OMEGA_H_ELEM_BASED 0 else Ok pm) = Ok pm1 /\ parted nranks pm1 /\ n <= pm_layers pm1) as (pm1 & E1 & P1 & B).
    { destruct (negb (same_parting old OMEGA_H_GHOSTED) || (n <? pm_layers pm)) eqn:Er.
      - destruct (to_elems (fun _ => UB) pm old P Eo) as (pm1 & R1 & E1 & E2 & E3 & P1 & I1). exists pm1. split; [exact E1|]. split; [exact P1|]. lia.
      - apply Bool.orb_false_iff in Er as [E1 E2]. apply Bool.negb_false_iff, same_parting_ok in E1. subst old. apply Z.ltb_ge in E2. exists pm. split; [reflexivity|]. split; [exact P|]. destruct P as (Sm & _ & _ & _ & D). rewrite Eo in D. destruct (ends_of _ Sm) as (elems & _ & He & _). destruct (D elems He) as [D0 _]. lia. }
    rewrite E1. cbn [bind]. rewrite (proj2 (Z.ltb_lt 1 nranks) N1). destruct P1 as (S1 & _ & _ & W1 & _). destruct (ends_of _ S1) as (elems & verts & He & Hv). destruct (Hask _ elems verts S1 He Hv W1) as (a & Ea & _). rewrite Ea. cbn [bind].
    unfold ghost_mesh. destruct (Z.leb_spec 0 (pm_layers pm1)); [|reflexivity]. destruct (Z.ltb_spec (pm_layers pm1) n); [lia|reflexivity].
  - destruct (Z.eqb_spec n 1); [tauto|reflexivity].
Qed.
End partings.
