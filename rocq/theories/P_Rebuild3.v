(** Rebuilding the connectivity of a mesh of which a part is replaced: the whole. *)
From Coq Require Import String.
From Verif Require Import Prelude M_Array P_Array M_Par M_Scan S_Sort M_Sort M_Map S_Map P_Map P_Map2 M_Template S_Template P_Template M_Align S_Align P_Align M_Unique S_Unique P_Unique M_Adj S_Adj P_Adj S_Transit P_Transit
  M_Match S_Match P_Match M_Tags M_Modify M_MeshAdj S_MeshAdj P_MeshAdj P_MeshAdj2 P_MeshAdj3 M_Build S_Build P_Build P_Box S_Unmap P_Unmap M_RefineMesh S_Rebuild P_Rebuild P_Rebuild2.
Local Open Scope Z_scope.

Section whole.
Context (T : topology) (HT : valid_topology T) (r : Z -> numbering) (PV : Z -> list Z) (HF : fits T r PV) (HN : forall d, 0 <= d <= t_dim T -> 0 <= nnew (r d)).
Context (c : chance) (old : amesh) (Hold : ready T old).
Local Notation F := (t_family T).
Local Notation D := (t_dim T).
Local Notation V := (V T r PV).
Definition finish := forall d, 1 <= d < D ->
  exists up, invert_adj (mk_adj [] (V d) None) (element_degree F d 0) (nnew (r 0)) (c_mem c 0 d) (c_first c 0 d) (c_second c 0 d) = Ok (Some up).
Definition rebuilds : Prop := exists o, rebuild c old r PV = Ok o /\ (forall m', o = Some m' -> exists T', valid_topology T' /\ rebuilt T r PV T' /\ mesh_of T' m') /\ (finish -> o <> None).

Lemma old_kept d : 1 <= d <= D -> kept_adj old d (d - 1) = t_down T d.
Proof. intros Hd. unfold kept_adj. destruct Hold as [I C]. rewrite (i_down T old I d Hd (C d ltac:(lia))). reflexivity. Qed.
Definition start : amesh := mk_amesh F D (fun d => if d =? 0 then nnew (r 0) else -1) (fun _ _ => None).
Lemma rebuild_start : rebuild c old r PV = rebuild_dims c old start r PV (zfromto 1 (D + 1)) /\ new_mesh F D (nnew (r 0)) = Ok start.
Proof.
  pose proof (v_dim T HT) as HD. destruct Hold as [I _]. unfold rebuild. rewrite (i_family T old I), (i_dim T old I). destruct (vertices_ok F D (nnew (r 0)) HD (HN 0 ltac:(lia))) as [E _]. rewrite E. cbn [bind]. auto.
Qed.
Definition made (down : Z -> adj) : topology := mk_topology F D (fun d => nnew (r d)) V down.
Lemma made_ok down : down 1 = mk_adj [] (V 1) None -> (forall d, 2 <= d <= D -> exists ab codes, down d = mk_adj [] ab (Some codes) /\ zlen ab = nnew (r d) * element_degree F d (d - 1) /\ zlen codes = zlen ab /\ reflects F d (d - 1) (V d) (V (d - 1)) ab codes) ->
  valid_topology (made down) /\ rebuilt T r PV (made down).
Proof.
  intros H1 H2. pose proof (v_dim T HT) as HD. split; [split; cbn; [exact HD|exact HN|intros d Hd; exact (V_lists T HT r PV HF HN d Hd)|exact H1|exact H2]|].
  split; [reflexivity|]. split; [reflexivity|]. split; [reflexivity|]. intros d e' row' Hd. destruct (V_ok T HT r PV HF HN d Hd) as (_ & _ & _ & _ & _ & _ & K). apply K.
Qed.

Lemma rebuild_1 : D = 1 -> rebuilds.
Proof.
  intros HD. destruct rebuild_start as [ER E0]. unfold rebuilds. rewrite ER, HD. change (zfromto 1 (1 + 1)) with [1]. cbn [rebuild_dims]. rewrite (old_kept 1) by lia. change (1 - 1) with 0.
  destruct (conn_edges T HT r PV HF HN c start eq_refl eq_refl eq_refl) as [E1 S1]. rewrite E1. unfold bindo. cbn [bind]. eexists. split; [reflexivity|]. split; [|intros _; discriminate]. intros m' Em. injection Em as <-.
  set (down := fun _ : Z => mk_adj [] (V 1) None). exists (made down). destruct (made_ok down eq_refl) as [Hv Hr]; [intros d Hd; lia|]. split; [exact Hv|]. split; [exact Hr|].
  exists start, [SetEnts 1 (mk_adj [] (V 1) None)]. split; [exact E0|]. split; [intros d a [H|[]]; injection H as <- <-; reflexivity|]. split; [rewrite (run_cons _ _ _ _ (set_event _ _ _ _ S1)); reflexivity|].
  intros d Hd. cbn in Hd |- *. pose proof (HN 0 ltac:(lia)). pose proof (HN 1 ltac:(lia)). destruct (Z.eqb_spec d 1); [lia|]. destruct (Z.eqb_spec d 0); lia.
Qed.

Lemma rebuild_2 : D = 2 -> rebuilds.
Proof.
  intros HD. destruct rebuild_start as [ER E0]. unfold rebuilds. rewrite ER, HD. change (zfromto 1 (2 + 1)) with [1; 2]. cbn [rebuild_dims]. rewrite (old_kept 1), (old_kept 2) by lia. change (1 - 1) with 0. change (2 - 1) with 1.
  destruct (conn_edges T HT r PV HF HN c start eq_refl eq_refl eq_refl) as [E1 S1]. rewrite E1. unfold bindo at 1. cbn [bind]. set (m1 := with_adj _ _ _ _) in *. pose proof (HN 0 ltac:(lia)) as N0. pose proof (HN 1 ltac:(lia)) as N1. pose proof (HN 2 ltac:(lia)) as N2.
  assert (ask_adj c m1 (2 - 1) 0 = Ok (Some (m1, mk_adj [] (V 1) None))) as EK by (apply ask_cached; cbn; lia || reflexivity).
  destruct (conn_high T HT r PV HF HN c m1 2 m1) as (o & Eo & Ho & Hf); try reflexivity; try lia; [exact N1|exact EK|]. change (2 - 1) with 1 in *. rewrite Eo.
  destruct o as [m2|]; [|unfold bindo; cbn [bind]; eexists; split; [reflexivity|]; split; [intros; discriminate|intros HFi; destruct (HFi 1 ltac:(lia)) as (up & Hup); exfalso; exact (Hf up Hup eq_refl)]].
  destruct (Ho m2 eq_refl) as (up & hl & codes & EU & -> & ES & Lh & Lc & R). unfold bindo. cbn [bind]. eexists. split; [reflexivity|]. split; [|intros; discriminate]. intros m' Em. injection Em as <-.
  set (down := fun d : Z => if d =? 2 then mk_adj [] hl (Some codes) else mk_adj [] (V 1) None). exists (made down). destruct (made_ok down eq_refl) as [Hv Hr]; [intros d Hd; assert (d = 2) as -> by lia; exists hl, codes; repeat split; assumption|]. split; [exact Hv|]. split; [exact Hr|].
  exists start, [SetEnts 1 (mk_adj [] (V 1) None); Ask 0 1 c; SetEnts 2 (mk_adj [] hl (Some codes))]. split; [exact E0|]. split; [intros d a H; cbn in H; destruct H as [H|[H|[H|[]]]]; [injection H as <- <-; reflexivity|discriminate|injection H as <- <-; reflexivity]|]. split.
  - rewrite (run_cons _ _ _ _ (set_event _ _ _ _ S1)). rewrite (run_cons _ _ _ _ (up_event _ _ _ _ _ EU)). cbn [fst]. rewrite (run_cons _ _ _ _ (set_event _ _ _ _ ES)). reflexivity.
  - intros d Hd. cbn in Hd |- *. destruct (Z.eqb_spec d 2); [lia|]. destruct (Z.eqb_spec d 1); [lia|]. destruct (Z.eqb_spec d 0); lia.
Qed.

Lemma rebuild_3 : D = 3 -> rebuilds.
Proof.
  intros HD. destruct rebuild_start as [ER E0]. unfold rebuilds. rewrite ER, HD. change (zfromto 1 (3 + 1)) with [1; 2; 3]. cbn [rebuild_dims]. rewrite (old_kept 1), (old_kept 2), (old_kept 3) by lia. change (1 - 1) with 0. change (2 - 1) with 1. change (3 - 1) with 2.
  destruct (conn_edges T HT r PV HF HN c start eq_refl eq_refl eq_refl) as [E1 S1]. rewrite E1. unfold bindo at 1. cbn [bind]. set (m1 := with_adj _ _ _ _) in *. pose proof (HN 0 ltac:(lia)) as N0. pose proof (HN 1 ltac:(lia)) as N1. pose proof (HN 2 ltac:(lia)) as N2. pose proof (HN 3 ltac:(lia)) as N3.
  assert (ask_adj c m1 (2 - 1) 0 = Ok (Some (m1, mk_adj [] (V 1) None))) as EK by (apply ask_cached; cbn; lia || reflexivity).
  destruct (conn_high T HT r PV HF HN c m1 2 m1) as (o & Eo & Ho & Hf); try reflexivity; try lia; [exact N1|exact EK|]. change (2 - 1) with 1 in *. rewrite Eo.
  destruct o as [m2|]; [|unfold bindo; cbn [bind]; eexists; split; [reflexivity|]; split; [intros; discriminate|intros HFi; destruct (HFi 1 ltac:(lia)) as (up & Hup); exfalso; exact (Hf up Hup eq_refl)]].
  destruct (Ho m2 eq_refl) as (up & hl & codes & EU & Em2 & ES & Lh & Lc & R). clear Hf Ho Eo. unfold bindo at 1. cbn [bind].
  assert (a_nents m2 0 = nnew (r 0) /\ a_nents m2 1 = nnew (r 1) /\ a_nents m2 2 = nnew (r 2) /\ a_nents m2 3 = -1 /\ a_family m2 = F /\ a_dim m2 = D) as (M0 & M1 & M2 & M3 & MF & MD) by (rewrite Em2; repeat split).
  assert (a_adjs m2 1 0 = Some (mk_adj [] (V 1) None) /\ a_adjs m2 2 1 = Some (mk_adj [] hl (Some codes)) /\ a_adjs m2 2 0 = None /\ a_adjs m2 0 2 = None) as (A10 & A21 & A20 & A02) by (rewrite Em2; repeat split).
  destruct (V_lists T HT r PV HF HN 2 ltac:(lia)) as (L2 & D2 & _).
  assert (ask_adj c m2 2 0 = Ok (Some (with_adj m2 2 0 (mk_adj [] (V 2) None), mk_adj [] (V 2) None))) as EF.
  { apply (ask_face_verts c m2 (V 2) (V 1) hl codes (nnew (r 2))); try (rewrite ?MF; assumption); lia. }
  destruct (conn_high T HT r PV HF HN c m2 3 (with_adj m2 2 0 (mk_adj [] (V 2) None))) as (o & Eo & Ho & Hf); try assumption; try reflexivity; try (change (3 - 1) with 2; lia).
  change (3 - 1) with 2 in *. rewrite Eo.
  destruct o as [m3|]; [|unfold bindo; cbn [bind]; eexists; split; [reflexivity|]; split; [intros; discriminate|intros HFi; destruct (HFi 2 ltac:(lia)) as (up' & Hup); exfalso; exact (Hf up' Hup eq_refl)]].
  destruct (Ho m3 eq_refl) as (up' & hl' & codes' & EU' & Em3 & ES' & Lh' & Lc' & R'). unfold bindo. cbn [bind]. eexists. split; [reflexivity|]. split; [|intros; discriminate]. intros m' Em. injection Em as <-.
  set (down := fun d : Z => if d =? 3 then mk_adj [] hl' (Some codes') else if d =? 2 then mk_adj [] hl (Some codes) else mk_adj [] (V 1) None). exists (made down).
  destruct (made_ok down eq_refl) as [Hv Hr]; [intros d Hd; assert (d = 2 \/ d = 3) as [->| ->] by lia; [exists hl, codes|exists hl', codes']; repeat split; assumption|]. split; [exact Hv|]. split; [exact Hr|].
  exists start, [SetEnts 1 (mk_adj [] (V 1) None); Ask 0 1 c; SetEnts 2 (mk_adj [] hl (Some codes)); Ask 2 0 c; Ask 0 2 c; SetEnts 3 (mk_adj [] hl' (Some codes'))]. split; [exact E0|].
  split; [intros d a H; cbn in H; decompose [or] H; try contradiction; try discriminate; match goal with E : SetEnts _ _ = SetEnts _ _ |- _ => injection E as <- <-; reflexivity end|]. split.
  - rewrite (run_cons _ _ _ _ (set_event _ _ _ _ S1)). rewrite (run_cons _ _ _ _ (up_event _ _ _ _ _ EU)). cbn [fst]. rewrite (run_cons _ _ _ _ (set_event _ _ _ _ ES)).
    rewrite (run_cons _ _ _ _ (ask_event _ _ _ _ _ EF)). cbn [fst]. rewrite (run_cons _ _ _ _ (up_event _ _ _ _ _ EU')). cbn [fst]. rewrite (run_cons _ _ _ _ (set_event _ _ _ _ ES')). reflexivity.
  - intros d Hd. cbn in Hd. rewrite Em3. cbn. destruct (Z.eqb_spec d 3); [lia|]. assert (d = 0 \/ d = 1 \/ d = 2) as [->|[->| ->]] by lia; lia.
Qed.
Lemma rebuild_all : rebuilds.
Proof. pose proof (v_dim T HT) as HD. assert (D = 1 \/ D = 2 \/ D = 3) as [E|[E|E]] by lia; [apply rebuild_1|apply rebuild_2|apply rebuild_3]; exact E. Qed.
Lemma rebuild_schedules mem : exists first second, forall del, let c' := mk_chance mem first second del in forall d, 1 <= d < D ->
  exists up, invert_adj (mk_adj [] (V d) None) (element_degree F d 0) (nnew (r 0)) (c_mem c' 0 d) (c_first c' 0 d) (c_second c' 0 d) = Ok (Some up).
Proof.
  pose proof (v_dim T HT) as HD.
  assert (exists G, forall d, 0 <= d < Z.of_nat (Z.to_nat D) -> 1 <= d -> exists up, invert_adj (mk_adj [] (V d) None) (element_degree F d 0) (nnew (r 0)) (mem 0 d) (fst (G d)) (snd (G d)) = Ok (Some up)) as (G & HG).
  { apply (finite_choice ([] : list nat, [] : list nat) (fun d sc => 1 <= d -> exists up, invert_adj (mk_adj [] (V d) None) (element_degree F d 0) (nnew (r 0)) (mem 0 d) (fst sc) (snd sc) = Ok (Some up))).
    intros d Hd. destruct (Z_le_dec 1 d) as [H1|H1]; [|exists ([], []); intros; lia]. destruct (V_lists T HT r PV HF HN d ltac:(lia)) as (L1 & L2 & L3). assert (0 < element_degree F d 0) as Hp by (apply degree_pos; lia).
    destruct (invert_adj_finishes (mk_adj [] (V d) None) (element_degree F d 0) (nnew (r 0)) (mem 0 d) Hp (HN 0 ltac:(lia)) L3 (distinct_no_repeats _ (V d) _ Hp L1 L2) ltac:(discriminate)) as (s1 & s2 & up & E). exists (s1, s2). intros _. exists up. exact E. }
  exists (fun _ d => fst (G d)), (fun _ d => snd (G d)). intros del c' d Hd. apply (HG d); lia.
Qed.
End whole.

