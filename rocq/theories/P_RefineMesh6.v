(** Splitting the edges of a mesh: the whole. *)
From Coq Require Import String Permutation Sorted.
From Verif Require Import Prelude M_Array P_Array M_Par M_Scan S_Scan P_Scan P_Fan S_Sort M_Sort M_Map S_Map P_Map P_Map2 M_Template S_Template P_Template M_Align S_Align P_Align M_Graph S_Graph P_Graph M_Unique S_Unique P_Unique M_Adj S_Adj P_Adj S_Transit P_Transit S_Across P_Across
  M_Match S_Match P_Match M_Tags M_MeshAdj S_MeshAdj P_MeshAdj P_MeshAdj2 P_MeshAdj3 M_Build S_Build P_Build P_Box S_Unmap P_Unmap P_Mark P_Coarsen
  M_Modify S_Modify P_Modify P_Modify2 S_Swap3d S_Swap2d S_Coarsen M_Refine S_Refine P_Refine P_SwapTopo M_RefineMesh S_RefineMesh S_Rebuild P_Rebuild P_Rebuild2 P_Rebuild3 P_RefineMesh1 P_RefineMesh2 P_RefineMesh3 P_RefineMesh4 P_RefineMesh5.
Local Open Scope Z_scope.

Lemma pairs_in dim p : In p (dim_pairs dim) <-> 0 <= fst p <= dim /\ 0 <= snd p <= dim /\ fst p <> snd p.
Proof.
  unfold dim_pairs. rewrite in_flat_map. split.
  - intros (b & Hb & I). apply in_flat_map in I as (a & Ha & I). rewrite in_zrange in *. destruct I as [<-|[<-|[]]]; cbn; lia.
  - destruct p as [x y]. cbn. intros (H1 & H2 & H3). destruct (Z_lt_dec x y).
    + exists y. split; [apply in_zrange; lia|]. apply in_flat_map. exists x. split; [apply in_zrange; lia|]. right; left; reflexivity.
    + exists x. split; [apply in_zrange; lia|]. apply in_flat_map. exists y. split; [apply in_zrange; lia|]. left; reflexivity.
Qed.
Section first.
Context (T : topology) (HT : valid_topology T) (fin : bool) (c : chance) (Hfin : fin = true -> finishes T c).
Local Notation D := (t_dim T).
Lemma ready_next m from to r : ready T m -> ask_adj c m from to = Ok (Some r) -> ready T (fst r) /\ keeps m (fst r) /\ a_adjs (fst r) from to = Some (snd r).
Proof.
  intros [I C] E. destruct (ask_inv T HT c _ _ _ _ _ I E) as [I' _]. destruct (ask_keeps _ _ _ _ _ _ E) as (K & N & A & _). split; [split; [exact I'|]|auto]. intros d Hd. rewrite N. apply C, Hd.
Qed.
Lemma keeps_trans m m1 m2 : keeps m m1 -> keeps m1 m2 -> keeps m m2.
Proof. intros (A1 & A2 & A3 & A4) (B1 & B2 & B3 & B4). split; [congruence|]. split; [congruence|]. split; [intros d Hd; rewrite <- (A3 d Hd); apply B3; rewrite (A3 d Hd); exact Hd|intros; apply B4, A4; assumption]. Qed.
Lemma each_good : forall l m, ready T m -> (forall p, In p l -> answerable T (fst p) (snd p)) -> good fin (ask_each c m l) /\
  forall old, ask_each c m l = Ok (Some old) -> ready T old /\ keeps m old /\ forall p, In p l -> exists a, a_adjs old (fst p) (snd p) = Some a.
Proof.
  induction l as [|p l IH]; intros m R HP; cbn [ask_each].
  - split; [apply good_ok|]. intros old E. injection E as <-. split; [exact R|]. split; [apply keeps_refl|intros p []].
  - split.
    + apply good_bindo.
      * apply (ask_good T HT fin c Hfin); [exact R|apply HP; left; reflexivity|]. destruct (HP p (or_introl eq_refl)) as (D1 & D2 & _). pose proof (v_dim T HT). unfold rank. destruct (Z.ltb_spec (snd p) (fst p)); [lia|]. destruct (fst p <? snd p); lia.
      * intros x E. apply IH; [apply (ready_next m _ _ x R E)|intros q Hq; apply HP; right; exact Hq].
    + intros old E. apply bindo_some in E as (x & E & H). destruct (ready_next m _ _ x R E) as (R' & K & A). destruct (IH (fst x) R' (fun q Hq => HP q (or_intror Hq))) as [_ Q]. destruct (Q old H) as (Ro & Ko & Ao). split; [exact Ro|]. split; [eapply keeps_trans; eassumption|]. intros q [<-|Hq]; [|apply Ao, Hq]. exists (snd x). apply Ko, A.
Qed.
Lemma asked_first m : ready T m -> good fin (ask_each c m (dim_pairs D)) /\ forall old, ask_each c m (dim_pairs D) = Ok (Some old) ->
  ready T old /\ forall a b, 0 <= a <= D -> 0 <= b <= D -> a <> b -> P_MeshAdj.val T a b = Ok (kept_adj old a b).
Proof.
  intros R. destruct (each_good (dim_pairs D) m R) as [G Q]; [intros p Hp; apply pairs_in in Hp as (H1 & H2 & H3); split; [exact H1|split; [exact H2|left; exact H3]]|]. split; [exact G|]. intros old E. destruct (Q old E) as (Ro & _ & A). split; [exact Ro|].
  intros a b Ha Hb Hab. destruct (A (a, b)) as (x & Ex); [apply pairs_in; auto|]. cbn in Ex. unfold kept_adj. rewrite Ex. apply (i_adjs T old (proj1 Ro) a b); assumption.
Qed.
End first.

Lemma sum_ones {A} (l : list A) : forall n, (n <= length l)%nat -> zsum (firstn n (map (fun _ => 1) l)) = Z.of_nat n.
Proof. induction l as [|x l IH]; intros [|n] H; cbn [length map firstn] in *; try reflexivity; [lia|]. specialize (IH n ltac:(lia)). unfold zsum in *. cbn [fold_right]. lia. Qed.
Lemma scan_ones {A} (l : list A) : offset_scan (map (fun _ => 1) l) = zrange (zlen l + 1).
Proof.
  pose proof (zlen_nonneg l) as N. assert (zlen (zrange (zlen l + 1)) = zlen l + 1) as Lz by (unfold zlen at 1; rewrite zrange_length; lia). apply list_eq_zget; [rewrite offset_scan_length, zlen_map; lia|]. intros i Hi. rewrite offset_scan_length, zlen_map in Hi. rewrite zget_zrange by lia.
  rewrite offset_scan_get by (rewrite zlen_map; lia). rewrite sum_ones by (unfold zlen in *; lia). rewrite Z2Nat.id by lia. reflexivity.
Qed.
Lemma sum_flat {A B} (f : A -> list B) l : zsum (map (fun x => zlen (f x)) l) = zlen (flat_map f l).
Proof. induction l as [|x l IH]; [reflexivity|]. cbn [map flat_map]. rewrite zlen_app, <- IH. reflexivity. Qed.

Section whole.
Context (T : topology) (HT : valid_topology T) (HS : simplicial T) (old : amesh) (HR : ready T old).
Context (HA : forall a b, 0 <= a <= t_dim T -> 0 <= b <= t_dim T -> a <> b -> P_MeshAdj.val T a b = Ok (kept_adj old a b)).
Context (keys : list Z) (HK : splittable T keys).
Local Notation D := (t_dim T).
Local Notation F := (t_family T).
Local Notation origs := (origs T old keys).
Local Notation verts := (verts old).
Definition k2p (d : Z) : list Z := offset_scan (map (fun k => zlen (orig T old d k)) keys).
Lemma k2p_0 : k2p 0 = zrange (zlen keys + 1).
Proof. unfold k2p. rewrite <- (scan_ones keys). f_equal. apply map_ext. intros k. rewrite (orig_0 T HT old). reflexivity. Qed.
Lemma k2p_facts d : is_fan (k2p d) /\ zlen (k2p d) = zlen keys + 1 /\ last_of (k2p d) = Ok (zlen (origs d)).
Proof.
  split; [apply offset_scan_fan; intros x Hx; apply in_map_iff in Hx as (k & <- & _); apply zlen_nonneg|]. split; [unfold k2p; rewrite offset_scan_length, zlen_map; reflexivity|]. unfold k2p. rewrite offset_scan_last, sum_flat. reflexivity.
Qed.
Lemma k2p_at d i k : zget keys i = Ok k -> exists lo, zget (k2p d) i = Ok lo /\ zget (k2p d) (i + 1) = Ok (lo + zlen (orig T old d k)) /\ 0 <= lo /\ forall j o, zget (orig T old d k) j = Ok o -> zget (origs d) (lo + j) = Ok o.
Proof.
  intros E. pose proof (zget_bounds _ _ _ E) as B. exists (zlen (flat_map (orig T old d) (firstn (Z.to_nat i) keys))). assert (zget (k2p d) i = Ok (zlen (flat_map (orig T old d) (firstn (Z.to_nat i) keys)))) as E1.
  { unfold k2p. rewrite offset_scan_get by (rewrite zlen_map; lia). rewrite firstn_map, sum_flat. reflexivity. }
  split; [exact E1|]. split.
  { destruct (offset_scan_step (map (fun k => zlen (orig T old d k)) keys) i (zlen (orig T old d k))) as (s & Es & En); [rewrite zget_map, E; reflexivity|]. unfold k2p in *. congruence. }
  split; [apply zlen_nonneg|]. intros j o Ej. pose proof (zget_bounds _ _ _ Ej) as Bj. apply zget_ok in E as [_ E]. apply nth_error_split in E as (l1 & l2 & El & Ll). rewrite El at 2. rewrite <- Ll, El, firstn_app, Nat.sub_diag, firstn_all. cbn [firstn]. rewrite app_nil_r.
  unfold P_RefineMesh4.origs. rewrite flat_map_app. rewrite zget_app_r by lia. replace (zlen (flat_map (orig T old d) l1) + j - zlen (flat_map (orig T old d) l1)) with j by lia. cbn [flat_map]. rewrite zget_app_l by lia. exact Ej.
Qed.

Lemma numbers_found : exists r L,
  (forall d, 0 <= d <= D -> modify_ents_adapt (view old) d 1 keys (k2p d) = Ok (r d) /\ good_numbering (view old) d (only_at 1 keys) (only_at 1 (k2p d)) (zlen (origs d)) (fun x => ~ exists k, In k keys /\ has_edge T d x k) (r d)) /\
  (forall d, 1 <= d <= D -> refine_products D d verts (fun d => kept_adj old 1 d) keys (prods2new (r 0)) (old2new (r 0)) = Ok (k2p d, PV L d)) /\
  (forall d, 1 <= d <= D -> (forall ts, In ts (L d) -> forall t, In t ts -> zlen t = d + 1) /\ Forall2 (fun k rows => Forall2 (made_of T (look (old2new (r 0))) (mid keys (prods2new (r 0))) d) (orig T old d k) rows) keys (L d)).
Proof.
  pose proof (v_dim T HT) as HD.
  destruct (finite_choice (mk_numbering [] [] [] [] 0) (fun d r => modify_ents_adapt (view old) d 1 keys (k2p d) = Ok r /\ good_numbering (view old) d (only_at 1 keys) (only_at 1 (k2p d)) (zlen (origs d)) (fun x => ~ exists k, In k keys /\ has_edge T d x k) r) (Z.to_nat (D + 1))) as (r & Hr).
  { intros d Hd. destruct (k2p_facts d) as (K1 & K2 & K3). apply (numbered T HT HS old HR HA keys HK d (k2p d) (zlen (origs d))); try assumption. lia. }
  assert (zlen (prods2new (r 0)) = zlen keys /\ zlen (old2new (r 0)) = t_nents T 0) as [Lp Lo].
  { destruct (Hr 0 ltac:(lia)) as [_ (G1 & G2 & G3 & G4 & G5 & G6 & G7 & _)]. rewrite (origs_0 T HT old), zlen_map in G4. split; [exact G4|]. unfold view in G7. cbn [nents] in G7. rewrite (old_nents T old HR 0) in G7 by lia. exact G7. }
  destruct (finite_choice ([] : list (list (list Z))) (fun d L => 1 <= d -> refine_products D d verts (fun d => kept_adj old 1 d) keys (prods2new (r 0)) (old2new (r 0)) = Ok (k2p d, flat (d + 1) L) /\
     (forall ts, In ts L -> forall t, In t ts -> zlen t = d + 1) /\ Forall2 (fun k rows => Forall2 (made_of T (look (old2new (r 0))) (mid keys (prods2new (r 0))) d) (orig T old d k) rows) keys L) (Z.to_nat (D + 1))) as (L & HL).
  { intros d Hd. destruct (Z_le_dec 1 d) as [H1|]; [|exists []; intros; lia]. destruct (rows_made T HT HS old HA keys HK (prods2new (r 0)) (old2new (r 0)) Lp Lo d ltac:(lia)) as (L & E & _ & W & M). exists L. intros _. split; [|auto]. rewrite E. do 2 f_equal. unfold k2p. f_equal.
    clear - M. induction M as [|k rows ks L M1 M IH]; [reflexivity|]. cbn [map]. rewrite IH. f_equal. apply Forall2_len in M1. unfold zlen. lia. }
  exists r, L. split; [intros d Hd; apply Hr; lia|]. split; intros d Hd; destruct (HL d ltac:(lia) ltac:(lia)) as (A & B & C); auto.
Qed.

Section with_numbers.
Context (r : Z -> numbering) (L : Z -> list (list (list Z))).
Context (Hr : forall d, 0 <= d <= D -> modify_ents_adapt (view old) d 1 keys (k2p d) = Ok (r d)).
Context (HP : forall d, 1 <= d <= D -> refine_products D d verts (fun d => kept_adj old 1 d) keys (prods2new (r 0)) (old2new (r 0)) = Ok (k2p d, PV L d)).
Fixpoint steps (d0 : Z) (dims : list Z) : Prop := match dims with [] => True | d :: ds => d = d0 /\ 1 <= d <= D /\ steps (d0 + 1) ds end.
Lemma refine_rebuild c : forall dims d0 new, steps d0 dims -> refine_dims c old keys (r 0) new (old2new (r (d0 - 1))) dims =
  bindo (rebuild_dims c old new r (PV L) dims) (fun m => Ok (Some (m, map (fun d => (r d, k2p d)) dims))).
Proof.
  induction dims as [|d dims IH]; intros d0 new S; [reflexivity|]. destruct S as (-> & Hd & S). cbn [refine_dims rebuild_dims map]. rewrite (old_dim T old HR). fold verts. change (fun d => adj_ab2b (kept_adj old d 0)) with verts. rewrite (HP d0 Hd). cbn [bind fst snd]. rewrite (Hr d0) by lia. cbn [bind].
  destruct (modify_conn c (kept_adj old d0 (d0 - 1)) new d0 (PV L d0) (r d0) (old2new (r (d0 - 1)))) as [[m|]| |]; try reflexivity. unfold bindo at 1. cbn [bind]. specialize (IH (d0 + 1) m S). replace (d0 + 1 - 1) with d0 in IH by lia. rewrite IH. unfold bindo. cbn [bind]. destruct (rebuild_dims c old m r (PV L) dims) as [[m1|]| |]; reflexivity.
Qed.
Lemma all_steps : steps 1 (zfromto 1 (D + 1)).
Proof. pose proof (v_dim T HT). assert (D = 1 \/ D = 2 \/ D = 3) as [E|[E|E]] by lia; rewrite E; [change (zfromto 1 (1 + 1)) with [1]|change (zfromto 1 (2 + 1)) with [1; 2]|change (zfromto 1 (3 + 1)) with [1; 2; 3]]; cbn [steps]; clear - E; intuition lia. Qed.
Lemma refine_after c : (new <- new_mesh F D (nnew (r 0)) ;; rest <~ refine_dims c old keys (r 0) new (old2new (r 0)) (zfromto 1 (D + 1)) ;; Ok (Some (old, fst rest, (r 0, k2p 0) :: snd rest))) =
  bindo (rebuild c old r (PV L)) (fun m => Ok (Some (old, m, map (fun d => (r d, k2p d)) (0 :: zfromto 1 (D + 1))))).
Proof.
  unfold rebuild. rewrite (old_family T old HR), (old_dim T old HR). destruct (new_mesh F D (nnew (r 0))) as [new| |]; try reflexivity. cbn [bind]. pose proof (refine_rebuild c (zfromto 1 (D + 1)) 1 new all_steps) as E. change (1 - 1) with 0 in E. rewrite E. unfold bindo. cbn [bind].
  destruct (rebuild_dims c old new r (PV L) (zfromto 1 (D + 1))) as [[m|]| |]; reflexivity.
Qed.
End with_numbers.
End whole.
