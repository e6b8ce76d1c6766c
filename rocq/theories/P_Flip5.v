(** Swapping edges of a 2D mesh: the operation. *)
From Coq Require Import String Permutation Sorted.
From Verif Require Import Prelude M_Array P_Array M_Par M_Scan S_Scan P_Scan P_Fan S_Sort M_Sort M_Map S_Map P_Map P_Map2 M_Template S_Template P_Template M_Align S_Align P_Align M_Graph S_Graph P_Graph M_Unique S_Unique P_Unique M_Adj S_Adj P_Adj S_Transit P_Transit S_Across P_Across
  M_Match S_Match P_Match M_Tags M_MeshAdj S_MeshAdj P_MeshAdj P_MeshAdj2 P_MeshAdj3 M_Build S_Build P_Build P_Box S_Unmap P_Unmap P_Mark P_Coarsen P_Mark
  M_Modify S_Modify P_Modify P_Modify2 S_Swap3d M_Swap2d S_Swap2d P_Swap2d S_Coarsen M_Refine S_Refine P_Refine P_SwapTopo M_RefineMesh S_RefineMesh S_Rebuild P_Rebuild P_Rebuild2 P_Rebuild3 P_RefineMesh1 P_RefineMesh2 P_RefineMesh3 P_RefineMesh4 P_RefineMesh5 P_RefineMesh6 P_RefineMesh7 P_RefineMesh8 S_Patch P_Patch M_Flip S_Flip P_Flip1 P_Flip2 P_Flip3 P_Flip4.
Local Open Scope Z_scope.

(** the loop that finds numbers as it goes is the one that has them *)
Lemma dims_rebuild c old key_dim keys prods r : forall dims low new, (forall d, In d dims -> modify_ents_adapt (view old) d key_dim keys (fst (prods d)) = Ok (r d)) ->
  (forall i d, zget dims i = Ok d -> d = low + 1 + i) ->
  adapt_dims c old key_dim keys prods new (old2new (r low)) dims = bindo (rebuild_dims c old new r (fun d => snd (prods d)) dims) (fun m => Ok (Some (m, map (fun d => (r d, fst (prods d))) dims))).
Proof.
  induction dims as [|d dims IH]; intros low new H S; [reflexivity|]. pose proof (S 0 d eq_refl) as Ed. rewrite Z.add_0_r in Ed. cbn [adapt_dims rebuild_dims map]. rewrite (H d (or_introl eq_refl)). cbn [bind]. replace (d - 1) with low by lia.
  destruct (modify_conn c (kept_adj old d low) new d (snd (prods d)) (r d) (old2new (r low))) as [[m|]| |]; try reflexivity. unfold bindo at 1. cbn [bind]. rewrite (IH d m).
  - unfold bindo. cbn [bind]. destruct (rebuild_dims c old m r (fun d0 => snd (prods d0)) dims) as [[m1|]| |]; reflexivity.
  - intros d' I. apply H. right. exact I.
  - intros i d' E. assert (zget (d :: dims) (i + 1) = Ok d') as E'. { pose proof (zget_bounds _ _ _ E). change (d :: dims) with ([d] ++ dims). rewrite zget_app_r by (unfold zlen; cbn; lia). change (zlen [d]) with 1. replace (i + 1 - 1) with i by lia. exact E. } apply S in E'. lia.
Qed.
Lemma rebuild_dims_ext c old r PV PV' : forall dims new, (forall d, In d dims -> PV d = PV' d) -> rebuild_dims c old new r PV dims = rebuild_dims c old new r PV' dims.
Proof.
  induction dims as [|d dims IH]; intros new H; [reflexivity|]. cbn [rebuild_dims]. rewrite (H d (or_introl eq_refl)). destruct (modify_conn _ _ _ _ _ _ _) as [[m|]| |]; try reflexivity. unfold bindo. cbn [bind]. apply IH. intros d' I. apply H. right. exact I.
Qed.
Section final.
Context (T : topology) (HT : valid_topology T) (HS : simplicial T) (m : amesh) (HM : mesh_of T m) (keys : list Z) (HW : swappable T keys).
Let D2 : t_dim T = 2 := w_dim T keys HW.
Local Notation D := (t_dim T).
Lemma flip_reduces c fin (Hfin : fin = true -> finishes T c) : good fin (ask_each c m (dim_pairs D)) /\
  (forall o, ask_each c m (dim_pairs D) = Ok (Some o) -> exists r k2ps PV, fits T r PV /\ (forall d, 0 <= d <= D -> 0 <= nnew (r d)) /\ ready T o /\
    (forall c', swap2d_element_based c c' m keys = bindo (rebuild c' o r PV) (fun n => Ok (Some (o, n, map (fun d => (r d, k2ps d)) [1; 2])))) /\
    exists from, (forall T', rebuilt T r PV T' -> simplicial T' /\ assembled T (swap_makes T keys) (swap_verts T) from T') /\
    forall A ncomps (data : Z -> list A) d, 1 <= d <= 2 -> 0 <= ncomps -> (forall d, 0 <= d <= D -> zlen (data d) = t_nents T d * ncomps) ->
      exists l, inherit_swap keys ncomps data d (k2ps d) (r d) = Ok l /\ takes_from (nnew (r d)) ncomps data (fun e' => swap_source d (from d e')) l).
Proof.
  pose proof (mesh_ready T m HT HM) as RM. destruct (asked_first T HT fin c Hfin m RM) as [Gd Q]. split; [exact Gd|]. intros old E. destruct (Q old E) as [HR HA].
  destruct (flips_found T HT HS old HA keys HW) as (codes & L & EC & ET & FO). destruct (flips_numbered T HT HS old HR HA keys HW) as (r & R0 & RG).
  assert (forall d, 1 <= d <= 2 -> modify_ents_adapt (view old) d 1 keys (kp keys d) = Ok (r d)) as RA by (intros d Hd; apply (RG d Hd)).
  assert (forall d, 1 <= d <= 2 -> good_numbering (view old) d (only_at 1 keys) (only_at 1 (kp keys d)) (zlen keys * d) (fun x => ~ exists k, In k keys /\ has_edge T d x k) (r d)) as RG' by (intros d Hd; apply (RG d Hd)). clear RG.
  exists r, (kp keys), (PVL L). split; [eapply q_fits; eassumption|]. split; [intros d Hd; eapply q_nn; try eassumption; lia|]. split; [exact HR|]. split.
  - intros c'. unfold swap2d_element_based. rewrite (i_dim T m (proj1 RM)), (i_family T m (proj1 RM)). rewrite E. unfold bindo at 1. cbn [bind]. unfold rebuild. rewrite (old_family T old HR), (old_dim T old HR). 
    assert (a_nents m 0 = t_nents T 0) as E0 by (apply (old_nents T m RM); lia). rewrite E0, R0. cbn [nnew same_numbers]. destruct (new_mesh (t_family T) D (t_nents T 0)) as [new| |]; try reflexivity. cbn [bind]. rewrite EC. cbn [bind]. rewrite ET. cbn [bind]. rewrite D2. change (zfromto 1 (2 + 1)) with [1; 2].
    replace (zrange (t_nents T 0)) with (old2new (r 0)) by (rewrite R0; reflexivity). set (prods := fun d => if d =? 1 then (kp keys 1, concat (L 1)) else (kp keys 2, concat (L 2))).
    rewrite (dims_rebuild c' old 1 keys prods r [1; 2] 0 new).
    + rewrite (rebuild_dims_ext c' old r (fun d => snd (prods d)) (PVL L) [1; 2] new) by (intros d [<-|[<-|[]]]; reflexivity). destruct (rebuild_dims c' old new r (PVL L) [1; 2]) as [[n|]| |]; reflexivity.
    + intros d [<-|[<-|[]]]; apply RA; lia.
    + intros i d Ei. pose proof (zget_bounds _ _ _ Ei) as B. unfold zlen in B. cbn in B. assert (i = 0 \/ i = 1) as [->| ->] by lia; cbn in Ei; injection Ei as <-; reflexivity.
  - exists (came keys r). split; [intros T' RB; eapply q_new; eassumption|]. intros A ncomps data d Hd Hc Hdata. eapply values_right; try eassumption. intros d' Hd'. apply Hdata. lia.
Qed.
Lemma flips_total c c' : exists o, swap2d_element_based c c' m keys = Ok o.
Proof.
  destruct (flip_reduces c false ltac:(discriminate)) as [(o & E & _) Q]. destruct o as [old|].
  - destruct (Q old E) as (r & k2ps & PV & HF & HN & HR & ER & _). destruct (rebuild_all T HT r PV HF HN c' old HR) as (n & En & _). rewrite ER, En. unfold bindo. cbn [bind]. destruct n; eauto.
  - exists None. unfold swap2d_element_based. rewrite (i_dim T m (proj1 (mesh_ready T m HT HM))), E. reflexivity.
Qed.
Lemma flips_replaces c c' old n info : swap2d_element_based c c' m keys = Ok (Some (old, n, info)) -> mesh_of T old.
Proof.
  intros E. destruct (flip_reduces c false ltac:(discriminate)) as [(o & Eo & _) Q]. destruct o as [old'|].
  - destruct (Q old' Eo) as (r & k2ps & PV & HF & HN & HR & ER & _). specialize (ER c'). rewrite E in ER. symmetry in ER. apply bindo_some in ER as (n' & En & ER). injection ER as <- <- <-. eapply mesh_each; eassumption.
  - exfalso. unfold swap2d_element_based in E. rewrite (i_dim T m (proj1 (mesh_ready T m HT HM))), Eo in E. discriminate.
Qed.
Lemma flips_right c c' old n info : swap2d_element_based c c' m keys = Ok (Some (old, n, info)) -> exists T' from,
  valid_topology T' /\ mesh_of T' n /\ simplicial T' /\ assembled T (swap_makes T keys) (swap_verts T) from T' /\
  exists r1 k1 r2 k2, info = [(r1, k1); (r2, k2)] /\
  forall A ncomps (data : Z -> list A), 0 <= ncomps -> (forall d, 0 <= d <= D -> zlen (data d) = t_nents T d * ncomps) ->
    (exists l, inherit_swap keys ncomps data 1 k1 r1 = Ok l /\ takes_from (t_nents T' 1) ncomps data (fun e' => swap_source 1 (from 1 e')) l) /\
    (exists l, inherit_swap keys ncomps data 2 k2 r2 = Ok l /\ takes_from (t_nents T' 2) ncomps data (fun e' => swap_source 2 (from 2 e')) l).
Proof.
  intros E. destruct (flip_reduces c false ltac:(discriminate)) as [(o & Eo & _) Q]. destruct o as [old'|].
  - destruct (Q old' Eo) as (r & k2ps & PV & HF & HN & HR & ER & from & H1 & H2). specialize (ER c'). rewrite E in ER. symmetry in ER. apply bindo_some in ER as (n' & En & ER). injection ER as <- <- <-. destruct (rebuild_all T HT r PV HF HN c' old' HR) as (x & Ex & HX & _). assert (x = Some n') as -> by congruence. destruct (HX n' eq_refl) as (T' & V & RB & M).
    exists T', from. split; [exact V|]. split; [exact M|]. destruct (H1 T' RB) as [S R]. split; [exact S|]. split; [exact R|]. cbn [map]. do 4 eexists. split; [reflexivity|].
    intros A ncomps data Hc Hdata. destruct RB as (_ & _ & N & _). rewrite (N 1), (N 2) by lia. split; apply H2; try assumption; lia.
  - exfalso. unfold swap2d_element_based in E. rewrite (i_dim T m (proj1 (mesh_ready T m HT HM))), Eo in E. discriminate.
Qed.
Lemma flips_finish mem mem' : exists first second first' second' x,
  swap2d_element_based (mk_chance mem first second (fun _ _ => false)) (mk_chance mem' first' second' (fun _ _ => false)) m keys = Ok (Some x).
Proof.
  destruct (finishing_chance T mem HT) as (first & second & HF). set (c := mk_chance mem first second (fun _ _ => false)) in *. destruct (flip_reduces c true (fun _ => HF)) as [(o & Eo & Ho) Q]. destruct (Ho eq_refl) as (old & ->).
  destruct (Q old Eo) as (r & k2ps & PV & Fi & HN & HR & ER & _). destruct (rebuild_schedules T HT r PV Fi HN mem') as (first' & second' & FS). specialize (FS (fun _ _ => false)). cbv zeta in FS. exists first, second, first', second'. fold c.
  destruct (rebuild_all T HT r PV Fi HN (mk_chance mem' first' second' (fun _ _ => false)) old HR) as (n & En & _ & Hn). rewrite ER, En. destruct n as [n|]; [|destruct (Hn FS); reflexivity]. eexists. reflexivity.
Qed.
End final.
