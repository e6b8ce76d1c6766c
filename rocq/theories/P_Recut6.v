(** Swapping edges of a 3D mesh: the operation. *)
From Coq Require Import String Permutation Sorted.
From Verif Require Import Prelude M_Array P_Array M_Par M_Scan S_Scan P_Scan P_Fan S_Sort M_Sort M_Map S_Map P_Map P_Map2 M_Template S_Template P_Template M_Align S_Align P_Align M_Graph S_Graph P_Graph M_Unique S_Unique P_Unique M_Adj S_Adj P_Adj S_Transit P_Transit S_Across P_Across
  M_Match S_Match P_Match M_Tags M_MeshAdj S_MeshAdj P_MeshAdj P_MeshAdj2 P_MeshAdj3 M_Build S_Build P_Build P_Box S_Unmap P_Unmap P_Mark P_Coarsen P_Mark
  M_Modify S_Modify P_Modify P_Modify2 M_SwapTables M_Swap3d S_Swap3d S_SwapMesh P_SwapTables P_Loop P_SwapVolume P_SwapKey S_Coarsen M_Refine S_Refine P_Refine P_SwapTopo M_RefineMesh S_RefineMesh S_Rebuild P_Rebuild P_Rebuild2 P_Rebuild3 P_RefineMesh1 P_RefineMesh2 P_RefineMesh3 P_RefineMesh4 P_RefineMesh5 P_RefineMesh6 P_RefineMesh7 P_RefineMesh8 S_Patch P_Patch M_Flip P_Flip2 P_Flip3 P_Flip4 P_Flip5 S_Recut M_Recut P_Recut1 P_Recut2 P_Recut3 P_Recut4 P_Recut5.
Local Open Scope Z_scope.

Section final.
Context (T : topology) (HT : valid_topology T) (HS : simplicial T) (m : amesh) (HM : mesh_of T m) (keys configs : list Z) (HX : recuttable T keys configs).
Let D3 : t_dim T = 3 := x_dim T keys configs HX.
Local Notation D := (t_dim T).
Lemma recut_reduces c fin (Hfin : fin = true -> finishes T c) : good fin (ask_each c m (dim_pairs D)) /\
  (forall o, ask_each c m (dim_pairs D) = Ok (Some o) -> exists r k2ps PV, fits T r PV /\ (forall d, 0 <= d <= D -> 0 <= nnew (r d)) /\ ready T o /\
    (forall c', swap3d_element_based c c' m keys configs = bindo (rebuild c' o r PV) (fun n => Ok (Some (o, n, map (fun d => (r d, k2ps d)) [1; 2; 3])))) /\
    exists from, (forall T', rebuilt T r PV T' -> simplicial T' /\ assembled T (recut_makes T keys configs) (recut_verts T configs) from T') /\
    forall A ncomps (data : Z -> list A) d, 1 <= d <= 3 -> 0 <= ncomps -> (forall d, 0 <= d <= D -> zlen (data d) = t_nents T d * ncomps) ->
      exists l, inherit_swap keys ncomps data d (k2ps d) (r d) = Ok l /\ takes_from (nnew (r d)) ncomps data (fun e' => recut_source d (from d e')) l).
Proof.
  pose proof (mesh_ready T m HT HM) as RM. destruct (asked_first T HT fin c Hfin m RM) as [Gd Q]. split; [exact Gd|]. intros old E. destruct (Q old E) as [HR HA].
  destruct (pick_on (is_data T configs) (mk_sd 0 0 [] 0 [] []) keys (fun k I => has_data T keys configs HX k I)) as (g & GG).
  destruct (recuts_found T HT HS old HA keys configs HX g GG) as (codes & EC & EP & ET). destruct (recuts_numbered T HT HS old HR HA keys configs HX g GG) as (r & R0 & RG).
  assert (forall d, 1 <= d <= 3 -> modify_ents_adapt (view old) d 1 keys (kp keys g d) = Ok (r d)) as RA by (intros d Hd; apply (RG d Hd)).
  assert (forall d, 1 <= d <= 3 -> good_numbering (view old) d (only_at 1 keys) (only_at 1 (kp keys g d)) (zlen (origs keys g d)) (fun x => ~ exists k, In k keys /\ has_edge T d x k) (r d)) as RG' by (intros d Hd; apply (RG d Hd)). clear RG.
  exists r, (kp keys g), (PVL (L keys g)). split; [eapply q_fits; eassumption|]. split; [intros d Hd; eapply q_nn; try eassumption; lia|]. split; [exact HR|]. split.
  - intros c'. unfold swap3d_element_based. rewrite (i_dim T m (proj1 RM)), (i_family T m (proj1 RM)). rewrite E. unfold bindo at 1. cbn [bind]. unfold rebuild. rewrite (old_family T old HR), (old_dim T old HR). 
    assert (a_nents m 0 = t_nents T 0) as E0 by (apply (old_nents T m RM); lia). rewrite E0, R0. cbn [nnew same_numbers]. destruct (new_mesh (t_family T) D (t_nents T 0)) as [new| |]; try reflexivity. cbn [bind]. rewrite EC. cbn [bind]. rewrite EP. cbn [bind]. rewrite ET. cbn [bind]. rewrite D3. change (zfromto 1 (3 + 1)) with [1; 2; 3].
    replace (zrange (t_nents T 0)) with (old2new (r 0)) by (rewrite R0; reflexivity). set (prods := fun d => if d =? 1 then (kp keys g 1, concat (L keys g 1)) else if d =? 2 then (kp keys g 2, concat (L keys g 2)) else (kp keys g 3, concat (L keys g 3))).
    rewrite (dims_rebuild c' old 1 keys prods r [1; 2; 3] 0 new).
    + rewrite (rebuild_dims_ext c' old r (fun d => snd (prods d)) (PVL (L keys g)) [1; 2; 3] new) by (intros d [<-|[<-|[<-|[]]]]; reflexivity). destruct (rebuild_dims c' old new r (PVL (L keys g)) [1; 2; 3]) as [[n|]| |]; reflexivity.
    + intros d [<-|[<-|[<-|[]]]]; apply RA; lia.
    + intros i d Ei. pose proof (zget_bounds _ _ _ Ei) as B. unfold zlen in B. cbn in B. assert (i = 0 \/ i = 1 \/ i = 2) as [->|[->| ->]] by lia; cbn in Ei; injection Ei as <-; reflexivity.
  - exists (came keys g r). split; [intros T' RB; eapply q_new; eassumption|]. intros A ncomps data d Hd Hc Hdata. eapply values_right; try eassumption. intros d' Hd'. apply Hdata. lia.
Qed.
Lemma recuts_total c c' : exists o, swap3d_element_based c c' m keys configs = Ok o.
Proof.
  destruct (recut_reduces c false ltac:(discriminate)) as [(o & E & _) Q]. destruct o as [old|].
  - destruct (Q old E) as (r & k2ps & PV & HF & HN & HR & ER & _). destruct (rebuild_all T HT r PV HF HN c' old HR) as (n & En & _). rewrite ER, En. unfold bindo. cbn [bind]. destruct n; eauto.
  - exists None. unfold swap3d_element_based. rewrite (i_dim T m (proj1 (mesh_ready T m HT HM))), E. reflexivity.
Qed.
Lemma recuts_replaces c c' old n info : swap3d_element_based c c' m keys configs = Ok (Some (old, n, info)) -> mesh_of T old.
Proof.
  intros E. destruct (recut_reduces c false ltac:(discriminate)) as [(o & Eo & _) Q]. destruct o as [old'|].
  - destruct (Q old' Eo) as (r & k2ps & PV & HF & HN & HR & ER & _). specialize (ER c'). rewrite E in ER. symmetry in ER. apply bindo_some in ER as (n' & En & ER). injection ER as <- <- <-. eapply mesh_each; eassumption.
  - exfalso. unfold swap3d_element_based in E. rewrite (i_dim T m (proj1 (mesh_ready T m HT HM))), Eo in E. discriminate.
Qed.
Lemma recuts_right c c' old n info : swap3d_element_based c c' m keys configs = Ok (Some (old, n, info)) -> exists T' from,
  valid_topology T' /\ mesh_of T' n /\ simplicial T' /\ assembled T (recut_makes T keys configs) (recut_verts T configs) from T' /\
  exists r1 k1 r2 k2 r3 k3, info = [(r1, k1); (r2, k2); (r3, k3)] /\
  forall A ncomps (data : Z -> list A), 0 <= ncomps -> (forall d, 0 <= d <= D -> zlen (data d) = t_nents T d * ncomps) ->
    (exists l, inherit_swap keys ncomps data 1 k1 r1 = Ok l /\ takes_from (t_nents T' 1) ncomps data (fun e' => recut_source 1 (from 1 e')) l) /\
    (exists l, inherit_swap keys ncomps data 2 k2 r2 = Ok l /\ takes_from (t_nents T' 2) ncomps data (fun e' => recut_source 2 (from 2 e')) l) /\
    (exists l, inherit_swap keys ncomps data 3 k3 r3 = Ok l /\ takes_from (t_nents T' 3) ncomps data (fun e' => recut_source 3 (from 3 e')) l).
Proof.
  intros E. destruct (recut_reduces c false ltac:(discriminate)) as [(o & Eo & _) Q]. destruct o as [old'|].
  - destruct (Q old' Eo) as (r & k2ps & PV & HF & HN & HR & ER & from & H1 & H2). specialize (ER c'). rewrite E in ER. symmetry in ER. apply bindo_some in ER as (n' & En & ER). injection ER as <- <- <-. destruct (rebuild_all T HT r PV HF HN c' old' HR) as (x & Ex & Hx & _). assert (x = Some n') as -> by congruence. destruct (Hx n' eq_refl) as (T' & V & RB & M).
    exists T', from. split; [exact V|]. split; [exact M|]. destruct (H1 T' RB) as [S R]. split; [exact S|]. split; [exact R|]. cbn [map]. do 6 eexists. split; [reflexivity|].
    intros A ncomps data Hc Hdata. destruct RB as (_ & _ & N & _). rewrite (N 1), (N 2), (N 3) by lia. split; [|split]; apply H2; try assumption; lia.
  - exfalso. unfold swap3d_element_based in E. rewrite (i_dim T m (proj1 (mesh_ready T m HT HM))), Eo in E. discriminate.
Qed.
Lemma recuts_finish mem mem' : exists first second first' second' x,
  swap3d_element_based (mk_chance mem first second (fun _ _ => false)) (mk_chance mem' first' second' (fun _ _ => false)) m keys configs = Ok (Some x).
Proof.
  destruct (finishing_chance T mem HT) as (first & second & HF). set (c := mk_chance mem first second (fun _ _ => false)) in *. destruct (recut_reduces c true (fun _ => HF)) as [(o & Eo & Ho) Q]. destruct (Ho eq_refl) as (old & ->).
  destruct (Q old Eo) as (r & k2ps & PV & Fi & HN & HR & ER & _). destruct (rebuild_schedules T HT r PV Fi HN mem') as (first' & second' & FS). specialize (FS (fun _ _ => false)). cbv zeta in FS. exists first, second, first', second'. fold c.
  destruct (rebuild_all T HT r PV Fi HN (mk_chance mem' first' second' (fun _ _ => false)) old HR) as (n & En & _ & Hn). rewrite ER, En. destruct n as [n|]; [|destruct (Hn FS); reflexivity]. eexists. reflexivity.
Qed.
End final.
